(** Non-interference of credentials; independence from segmentation. *)

From Coq Require Import Ascii String List NArith ZArith Bool Lia ZifyBool ZifyNat ZifyN.
From Verif Require Import Base Lib ModelUtil ModelBase64 ModelAddress ModelAttachment ModelMessage ModelReply ModelErrors ModelState ModelClient ModelWorld
  ProofAuth ProofAuth3 ProofPair.
From Verif Require Import SpecAuth SpecPair.
Import ListNotations.
Open Scope Z_scope.

Section secrets.
Variable L : list (credential * credential).
Definition Ks (a b : option credential) : Prop :=
  match a, b with
  | None, None => True
  | Some c1, Some c2 => cr_method c1 = cr_method c2 /\ (c1 = c2 \/ In (c1, c2) L)
  | _, _ => False
  end.
Definition Ts (_ : N) : Prop := True.
Definition Rts (t1 t2 : list event) : Prop := Forall2 (same_event L) t1 t2.
Definition Rds (t1 t2 : list event) : Prop := t1 = t2.
Lemma Rts_refl : forall t, Rts t t.
Proof. induction t; constructor; [left; reflexivity|assumption]. Qed.
Lemma Rts_app : forall t1 t2 t, Rts t1 t2 -> Rts (t1 ++ t) (t2 ++ t).
Proof. intros. apply Forall2_app; [assumption|apply Rts_refl]. Qed.
Lemma Rts_reads : forall t1 t2 r1 r2, Rts t1 t2 -> Rds r1 r2 -> Rts (t1 ++ r1) (t2 ++ r2).
Proof. intros t1 t2 r1 r2 R <-. apply Rts_app, R. Qed.
Lemma Ks_none : forall o, Ks None o -> o = None.
Proof. intros [c|] H; [destruct H|reflexivity]. Qed.
Lemma Ks_some : forall cr o, Ks (Some cr) o -> exists cr', o = Some cr' /\ cr_method cr' = cr_method cr.
Proof. intros cr [c|] H; [|destruct H]. exists c. split; [reflexivity|]. symmetry. apply H. Qed.
Lemma ok_secret : forall f c1 c2 d1 d2, In (c1, c2) L -> secret_line f c1 d1 -> secret_line f c2 d2 -> cstr d1 = d1 -> cstr d2 = d2 -> ok_pair Rts d1 d2.
Proof.
  intros f c1 c2 d1 d2 H S1 S2 E1 E2 t1 t2 R. rewrite E1, E2.
  split; intros; (apply Forall2_app; [exact R|]; constructor; [|constructor]; right; exists f, c1, c2, d1, d2; repeat (split; [assumption|])); [left|right]; eauto.
Qed.
Lemma ok_refl' : forall d, ok_pair Rts d d.
Proof. intros d t1 t2 R. split; intros; apply Rts_app, R. Qed.
Lemma Ks_script : forall cr1 cr2 k, Ks (Some cr1) (Some cr2) -> Forall2 (ok_pair Rts) (script k cr1) (script k cr2).
Proof.
  intros cr1 cr2 k [_ [->|H]]; [induction (script k cr2); constructor; [apply ok_refl'|assumption]|].
  pose proof (script_nonul k cr1) as N1. pose proof (script_nonul k cr2) as N2.
  destruct k; cbn [script] in *.
  - constructor; [|constructor]. refine (ok_secret InPlain cr1 cr2 _ _ H (encode_line _ _) (encode_line _ _) (N1 _ _) (N2 _ _)); left; reflexivity.
  - constructor; [apply ok_refl'|]. constructor; [|constructor; [|constructor]].
    + refine (ok_secret InUser cr1 cr2 _ _ H (encode_line [] _) (encode_line [] _) (N1 _ _) (N2 _ _)); right; left; reflexivity.
    + refine (ok_secret InPassword cr1 cr2 _ _ H (encode_line [] _) (encode_line [] _) (N1 _ _) (N2 _ _)); right; right; left; reflexivity.
  - constructor; [|constructor]. refine (ok_secret InXoauth2 cr1 cr2 _ _ H (encode_line _ _) (encode_line _ _) (N1 _ _) (N2 _ _)); left; reflexivity.
Qed.
Definition same_l (a b : list recv_res) : Prop := a = b.
Lemma same_reads : reads_alike Ts Rds same_l.
Proof. intros fd tmo rs1 rs2 _ <-. repeat split. Qed.
Lemma same_greets : greets Ts Rds same_l same_l.
Proof. intros fd tmo rs1 rs2 _ <-. repeat split. Qed.

(** Worlds. *)
Definition like_o (a b : option client) : Prop :=
  match a, b with None, None => True | Some c1, Some c2 => like_c Ks Ts c1 c2 | _, _ => False end.
Definition like_w (w1 w2 : world) : Prop :=
  Forall2 like_o (w_clients w1) (w_clients w2) /\ w_env w1 = w_env w2 /\ Rts (w_trace w1) (w_trace w2).
Lemma like_get : forall w1 w2 i, like_w w1 w2 -> like_o (get_client w1 i) (get_client w2 i).
Proof.
  intros w1 w2 i (C & _). unfold get_client. revert i. induction C as [|a b l1 l2 H C IH]; intros [|i]; cbn [nth_error]; try exact Logic.I; [|apply IH].
  destruct a, b; exact H.
Qed.
Lemma like_set : forall l1 l2 i a b, Forall2 like_o l1 l2 -> like_o a b -> Forall2 like_o (list_set l1 i a) (list_set l2 i b).
Proof.
  intros l1 l2 i a b C. revert i. induction C as [|x y l1 l2 H C IH]; intros [|i] O; cbn [list_set]; constructor; auto.
Qed.
Lemma like_put : forall w1 w2 i a b, like_w w1 w2 -> like_o a b -> like_w (put_client i a w1) (put_client i b w2).
Proof. intros w1 w2 i a b (C & E & R) O. split; [apply like_set; assumption|]. split; assumption. Qed.
Lemma like_push : forall w1 w2 a b, like_w w1 w2 -> like_c Ks Ts a b -> like_w (push_client a w1) (push_client b w2).
Proof. intros w1 w2 a b (C & E & R) O. split; [|split; assumption]. cbn [push_client w_clients]. apply Forall2_app; [exact C|]. constructor; [exact O|constructor]. Qed.
Lemma Ks_refl : forall o, Ks o o.
Proof. intros [c|]; [split; [reflexivity|left; reflexivity]|exact Logic.I]. Qed.
Lemma like_c_refl : forall c, like_c Ks Ts c c.
Proof. intros c. split; [exact Logic.I|]. exists (c_cred c). split; [apply Ks_refl|]. destruct c; reflexivity. Qed.
Definition like_oc (a b : outcome client) : Prop :=
  match a, b with Done c1, Done c2 => like_c Ks Ts c1 c2 | _, _ => a = b end.
Lemma like_create : forall a b w1 w2, like_oc a b -> like_w w1 w2 -> fst (create a w1) = fst (create b w2) /\ like_w (snd (create a w1)) (snd (create b w2)).
Proof.
  intros a b w1 w2 H W. destruct a, b; cbn [like_oc] in H; try discriminate H; cbn [create fst snd]; (split; [congruence|]); try exact W. apply like_push; assumption.
Qed.
Lemma like_alter : forall i f g w1 w2, (forall c1 c2, like_c Ks Ts c1 c2 -> like_oc (f c1) (g c2)) -> like_w w1 w2 ->
  fst (alter i f w1) = fst (alter i g w2) /\ like_w (snd (alter i f w1)) (snd (alter i g w2)).
Proof.
  intros i f g w1 w2 H W. unfold alter. pose proof (like_get w1 w2 i W) as G. destruct (get_client w1 i) as [c1|], (get_client w2 i) as [c2|]; cbn [like_o] in G; try contradiction.
  2: split; [reflexivity|exact W].
  specialize (H _ _ G). destruct (f c1), (g c2); cbn [like_oc] in H; try discriminate H; cbn [fst snd]; (split; [congruence|]); try exact W. apply like_put; assumption.
Qed.
Lemma like_run_on : forall {A} i (m : M A) f g w1 w2, sim Ks Ts Rts same_l same_l m m -> (forall c1 c2, like_c Ks Ts c1 c2 -> like_o (f c1) (g c2)) -> like_w w1 w2 ->
  fst (run_on i m f w1) = fst (run_on i m g w2) /\ like_w (snd (run_on i m f w1)) (snd (run_on i m g w2)).
Proof.
  intros A i m f g w1 w2 S F W. unfold run_on. pose proof (like_get w1 w2 i W) as G. destruct (get_client w1 i) as [c1|], (get_client w2 i) as [c2|]; cbn [like_o] in G; try contradiction.
  2: split; [reflexivity|exact W].
  destruct W as (C & E & R). destruct (S (mkSt c1 (w_env w1) (w_trace w1)) (mkSt c2 (w_env w2) (w_trace w2))) as [X (Lc & (r & Qr & Le) & Lt)].
  { split; [exact G|]. split; [|exact R]. cbn [s_e]. exists (e_recv (w_env w1)). split; [reflexivity|]. rewrite E. destruct (w_env w2); reflexivity. }
  destruct (m (mkSt c1 _ _)) as [x1 q1], (m (mkSt c2 _ _)) as [x2 q2]. cbn [fst snd] in *. split; [exact X|].
  split; [apply like_set; [exact C|apply F, Lc]|]. split; [|exact Lt]. cbn [w_env]. rewrite Le. red in Qr. rewrite <- Qr. destruct (s_e q1); reflexivity.
Qed.
Lemma sim_send_secret : forall m, sim Ks Ts Rts same_l same_l (sendMail m) (sendMail m).
Proof.
  intros m s1 s2 H. apply (sim_sendMail Ks Ts Rts Rds Ks_none Ks_some Rts_app Rts_reads Ks_script same_l same_l m s1 s2 same_reads (fun a b x => x) same_greets).
  destruct (c_conn (s_c s1)); exact H.
Qed.
Lemma sim_destroy_secret : sim Ks Ts Rts same_l same_l (cleanup;; ret 0) (cleanup;; ret 0).
Proof.
  eapply sim_bind; [apply sub_refl|exact (sim_cleanup Ks Ts Rts Rts_app same_l)|]. intros _. apply sim_ret.
Qed.
Definition op_like (a b : op) : Prop := same_but_secret a b /\ forall c1 c2, In (c1, c2) (secret_of (a, b)) -> In (c1, c2) L.
Lemma like_step : forall a b w1 w2, op_like a b -> like_w w1 w2 -> fst (step a w1) = fst (step b w2) /\ like_w (snd (step a w1)) (snd (step b w2)).
Proof.
  intros a b w1 w2 [S Sec] W. destruct S as [o|i c1 c2 Em].
  2: { cbn [step]. apply like_alter; [|exact W]. intros d1 d2 (Td & oo & _ & ->). cbn [like_oc]. split; [exact Logic.I|].
    exists (Some c2). split; [|reflexivity]. cbn [c_cred set_cred]. split; [exact Em|]. right. apply Sec. left. reflexivity. }
  clear Sec.
  assert (G : forall i, like_o (get_client w1 i) (get_client w2 i)) by (intros i; apply like_get, W).
  destruct o as [k srv port|i|i|i j|i j|i m|i p|i n|i v|i n|i cr|i v|i v|i]; cbn [step].
  - apply like_create; [|exact W]. destruct (client_new k srv port); cbn [like_oc]; try reflexivity. apply like_c_refl.
  - specialize (G i). destruct (get_client w1 i) as [c1|], (get_client w2 i) as [c2|]; cbn [like_o] in G; try contradiction; [|split; [reflexivity|exact W]].
    apply like_create; [|exact W]. destruct G as (_ & o & Ko & ->). unfold client_copy. cbn [c_server set_cred]. destruct (c_server c1); cbn [like_oc]; [|reflexivity].
    split; [exact Logic.I|]. exists o. split; [exact Ko|reflexivity].
  - specialize (G i). destruct (get_client w1 i) as [c1|], (get_client w2 i) as [c2|]; cbn [like_o] in G; try contradiction; [|split; [reflexivity|exact W]].
    split; [reflexivity|]. cbn [snd]. destruct G as (_ & o & Ko & ->). apply like_push; [apply like_put; [exact W|]|].
    + split; [exact Logic.I|]. exists None. split; [exact Logic.I|reflexivity].
    + split; [exact Logic.I|]. exists o. split; [exact Ko|reflexivity].
  - pose proof (G i) as Gi. pose proof (G j) as Gj. destruct (get_client w1 i) as [d1|], (get_client w2 i) as [d2|]; cbn [like_o] in Gi; try contradiction; [|split; [reflexivity|exact W]].
    destruct (get_client w1 j) as [c1|], (get_client w2 j) as [c2|]; cbn [like_o] in Gj; try contradiction; [|split; [reflexivity|exact W]].
    destruct (Nat.eqb i j); [split; [reflexivity|exact W]|]. destruct Gi as (_ & o' & _ & ->). destruct Gj as (_ & o & Ko & ->). cbn [c_kind set_cred].
    destruct (kind_eqb _ _); [|split; [reflexivity|exact W]]. apply like_alter; [|exact W]. intros x1 x2 (_ & ox & _ & ->).
    unfold client_assign. cbn [c_server set_cred]. destruct (c_server c1); cbn [like_oc]; [|reflexivity]. split; [exact Logic.I|]. exists o. split; [exact Ko|reflexivity].
  - pose proof (G i) as Gi. pose proof (G j) as Gj. destruct (get_client w1 i) as [d1|], (get_client w2 i) as [d2|]; cbn [like_o] in Gi; try contradiction; [|split; [reflexivity|exact W]].
    destruct (get_client w1 j) as [c1|], (get_client w2 j) as [c2|]; cbn [like_o] in Gj; try contradiction; [|split; [reflexivity|exact W]].
    destruct (Nat.eqb i j); [split; [reflexivity|exact W]|]. destruct Gi as (_ & o' & _ & ->). destruct Gj as (_ & o & Ko & ->). cbn [c_kind set_cred].
    destruct (kind_eqb _ _); [|split; [reflexivity|exact W]]. split; [reflexivity|]. cbn [snd]. apply like_put; [apply like_put; [exact W|]|].
    + split; [exact Logic.I|]. exists o. split; [exact Ko|reflexivity].
    + split; [exact Logic.I|]. exists None. split; [exact Logic.I|reflexivity].
  - apply like_run_on; [apply sim_send_secret| |exact W]. intros c1 c2 H. exact H.
  - apply like_alter; [|exact W]. intros c1 c2 (_ & o & Ko & ->). unfold client_setServerName. destruct (check_server_name p); cbn [obind like_oc]; try reflexivity.
    split; [exact Logic.I|]. exists o. split; [exact Ko|reflexivity].
  - apply like_alter; [|exact W]. intros c1 c2 (_ & o & Ko & ->). split; [exact Logic.I|]. exists o. split; [exact Ko|reflexivity].
  - apply like_alter; [|exact W]. intros c1 c2 (_ & o & Ko & ->). split; [exact Logic.I|]. exists o. split; [exact Ko|reflexivity].
  - apply like_alter; [|exact W]. intros c1 c2 (_ & o & Ko & ->). split; [exact Logic.I|]. exists o. split; [exact Ko|reflexivity].
  - apply like_alter; [|exact W]. intros c1 c2 (_ & o & Ko & ->). split; [exact Logic.I|]. exists (Some cr). split; [apply Ks_refl|reflexivity].
  - apply like_alter; [|exact W]. intros c1 c2 (_ & o & Ko & ->). split; [exact Logic.I|]. exists o. split; [exact Ko|reflexivity].
  - apply like_alter; [|exact W]. intros c1 c2 (_ & o & Ko & ->). cbn [c_kind set_cred]. destruct (c_kind c1); cbn [like_oc]; try reflexivity;
    (split; [exact Logic.I|]; exists o; split; [exact Ko|reflexivity]).
  - apply like_run_on; [apply sim_destroy_secret| |exact W]. intros c1 c2 H. exact Logic.I.
Qed.
Lemma like_run : forall p1 p2 w1 w2, Forall2 op_like p1 p2 -> like_w w1 w2 -> fst (run p1 w1) = fst (run p2 w2) /\ like_w (snd (run p1 w1)) (snd (run p2 w2)).
Proof.
  intros p1 p2 w1 w2 P. revert w1 w2. induction P as [|a b p1 p2 H P IH]; intros w1 w2 W; [split; [reflexivity|exact W]|]. cbn [run].
  destruct (like_step a b w1 w2 H W) as [E W']. destruct (step a w1) as [x1 v1], (step b w2) as [x2 v2]. cbn [fst snd] in *. subst x2.
  destruct (continues x1); [|split; [reflexivity|exact W']]. destruct (IH v1 v2 W') as [E2 W2].
  destruct (run p1 v1), (run p2 v2). cbn [fst snd] in *. subst. split; [reflexivity|exact W2].
Qed.
End secrets.

Lemma secrets_run : forall p1 p2 e, Forall2 same_but_secret p1 p2 ->
  fst (run p1 (initial_world e)) = fst (run p2 (initial_world e)) /\
  w_env (snd (run p1 (initial_world e))) = w_env (snd (run p2 (initial_world e))) /\
  Forall2 (same_event (secrets_of p1 p2)) (w_trace (snd (run p1 (initial_world e)))) (w_trace (snd (run p2 (initial_world e)))) /\
  forall i, option_map (set_cred None) (get_client (snd (run p1 (initial_world e))) i) = option_map (set_cred None) (get_client (snd (run p2 (initial_world e))) i).
Proof.
  intros p1 p2 e P.
  assert (P' : Forall2 (op_like (secrets_of p1 p2)) p1 p2).
  { assert (G : forall l, (forall x, In x (secrets_of p1 p2) -> In x l) -> Forall2 (op_like l) p1 p2).
    { clear e. induction P as [|a b p1 p2 H P IH]; intros l S; constructor.
      - split; [exact H|]. intros c1 c2 X. apply S. unfold secrets_of. cbn [combine flat_map]. apply in_or_app. left. exact X.
      - apply IH. intros x X. apply S. unfold secrets_of. cbn [combine flat_map]. apply in_or_app. right. exact X. }
    apply G. auto. }
  destruct (like_run (secrets_of p1 p2) p1 p2 (initial_world e) (initial_world e) P') as [E W].
  { split; [constructor|]. split; [reflexivity|constructor]. }
  split; [exact E|]. pose proof W as (_ & Ee & R). split; [exact Ee|]. split; [exact R|]. intros i. pose proof (like_get _ _ _ i W) as G.
  destruct (get_client (snd (run p1 _)) i) as [c1|], (get_client (snd (run p2 _)) i) as [c2|]; cbn [like_o] in G; try contradiction; [|reflexivity].
  destruct G as (_ & o & _ & ->). cbn [option_map]. reflexivity.
Qed.
Lemma secrets_log : forall p1 p2 e i c1 c2, Forall2 same_but_secret p1 p2 -> get_client (snd (run p1 (initial_world e))) i = Some c1 ->
  get_client (snd (run p2 (initial_world e))) i = Some c2 -> getCommunicationLog c1 = getCommunicationLog c2.
Proof.
  intros p1 p2 e i c1 c2 P G1 G2. destruct (secrets_run p1 p2 e P) as (_ & _ & _ & H). specialize (H i). rewrite G1, G2 in H. cbn [option_map] in H.
  apply (f_equal (fun o => match o with Some c => getCommunicationLog c | None => [] end)) in H. exact H.
Qed.
