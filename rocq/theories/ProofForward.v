(** What happens against a server that agrees: every step goes on. *)

From Coq Require Import Ascii String List NArith ZArith Bool Lia ZifyBool ZifyNat ZifyN.
From Verif Require Import Base Lib ModelUtil ModelBase64 ModelAddress ModelAttachment
  ModelErrors ModelReply ModelMessage ModelState ModelClient ModelWorld
  ProofSteps ProofWalk ProofPhases ProofEstablish ProofLog ProofSend ProofSafety
  SpecAddress SpecText SpecReply SpecMime SpecBase64 SpecDialogue SpecAuth SpecForward ProofReply ProofAddress ProofBase64 ProofMime
  ProofDialogue ProofMail ProofMail2 ProofMail3.
Import ListNotations.
Open Scope Z_scope.

Definition LIM : N := 4611686018427387904.
(** There is room in the log, of which at most [n] bytes are used. *)
Definition room (n : N) (c : client) : Prop :=
  good_log c /\ exists lg, c_log c = Some lg /\ (slen (lg_text lg) <= n)%N.
Lemma escape_length : forall s, (slen (escape_crlf s) <= 2 * slen s)%N.
Proof.
  assert (H : forall n s, (length s <= n)%nat -> (slen (escape_crlf s) <= 2 * slen s)%N).
  { induction n as [|n IH]; intros s L; [destruct s; [reflexivity|cbn in L; lia]|]. destruct s as [|c s]; [reflexivity|]. cbn [length] in L.
    cbn [escape_crlf]. destruct s as [|d s]; [unfold slen; cbn [length]; lia|].
    assert (S1 : forall x y, slen (x :: y) = (1 + slen y)%N) by (intros; unfold slen; cbn [length]; lia).
    destruct (Ascii.eqb c CR && Ascii.eqb d LF).
    - rewrite slen_app. specialize (IH s ltac:(cbn in L; lia)). rewrite !S1. change (slen (B "\r\n")) with 4%N. lia.
    - rewrite S1. specialize (IH (d :: s) ltac:(lia)). rewrite (S1 c). lia. }
  intros s. apply (H (length s)). lia.
Qed.
Lemma cstr_slen : forall s, (slen (cstr s) <= slen s)%N.
Proof. intros s. destruct (cstr_prefix s) as [y E]. rewrite E at 2. rewrite slen_app. lia. Qed.
Lemma entry_length : forall p i, (slen (entry p i) <= 2 * slen i + slen p + 3)%N.
Proof.
  intros p i. unfold entry. rewrite !slen_app. change (slen [LF]) with 1%N. change (slen (B ": ")) with 2%N.
  pose proof (cstr_slen i). destruct (str_eqb p (B "c")); [pose proof (escape_length (cstr i))|]; lia.
Qed.
Lemma addLog_room : forall item prefix n s, room n (s_c s) -> (n + 2 * slen item + slen prefix + 3 <= LIM)%N ->
  exists lg k, addLog item prefix s = (Done tt, log_state s lg k) /\ room (n + 2 * slen item + slen prefix + 3) (s_c (log_state s lg k)).
Proof.
  intros item prefix n s [G (lg & L & Ln)] Lm. destruct (addLog_good item prefix s G) as [X|(lg0 & lg' & k & L0 & T & X & C & S & M)].
  2: { exists lg', k. split; [exact X|]. split.
       - exists lg'. split; [reflexivity|]. cbn [c_logsize log_state s_c set_log]. split; [exact C|]. rewrite C. split; assumption.
       - exists lg'. split; [reflexivity|]. rewrite T, slen_app. rewrite L in L0. injection L0 as <-. pose proof (entry_length prefix item). lia. }
  exfalso. destruct G as (lg0 & L0 & C & T & M). rewrite L in L0. injection L0 as <-.
  unfold addLog, bind at 1, getc in X. rewrite L in X. cbv zeta in X.
  set (it := if str_eqb prefix (B "c") then escape_crlf (cstr item) else cstr item) in *.
  assert (I : (slen it <= 2 * slen item)%N). { pose proof (cstr_slen item). unfold it. destruct (str_eqb prefix (B "c")); [pose proof (escape_length (cstr item))|]; lia. }
  assert (Q : (MAX_OBJECT <? slen (lg_text lg) + (1 + slen prefix + 2 + slen it + 1) + INITIAL_COMM_LOG_LENGTH)%N = false).
  { unfold MAX_OBJECT, INITIAL_COMM_LOG_LENGTH, LIM in *. lia. }
  destruct (u64 _ <=? _)%N; cbn [andb] in X; [rewrite Q in X|]; match type of X with context [if ?b then _ else _] => destruct b end; discriminate X.
Qed.

(** The exchanges of [t] are [l], and its writes were accepted in full. *)
Definition talks (t : list event) (l : list (str * str)) : Prop := talk t l /\ full_writes t.
Lemma full_app : forall a b, full_writes a -> full_writes b -> full_writes (a ++ b).
Proof. intros a b H1 H2 ev H. apply in_app_or in H as [H|H]; [exact (H1 _ H)|exact (H2 _ H)]. Qed.
Lemma talks_app : forall a b l1 l2, talks a l1 -> talks b l2 -> talks (a ++ b) (l1 ++ l2).
Proof. intros a b l1 l2 [H1 F1] [H2 F2]. split; [apply talk_app; assumption|apply full_app; assumption]. Qed.
Lemma mute_full : forall t, exchanges t = [] -> full_writes t.
Proof.
  unfold exchanges. induction t as [|ev t IH]; intros H e He; [destruct He|]. assert (X : exists h, dialogue t = (h, [])).
  { destruct ev; cbn [dialogue] in H; try (destruct r); destruct (dialogue t) as [h l]; cbn in H; try discriminate H; subst; eauto. }
  destruct X as [h X]. destruct He as [<-|He]; [|apply IH; [rewrite X; reflexivity|exact He]].
  destruct ev; try exact I; cbn [dialogue] in H; rewrite X in H; discriminate H.
Qed.
Lemma mute_talks : forall t, talk t [] -> talks t [].
Proof. intros t H. split; [exact H|]. apply mute_full. unfold exchanges. rewrite H. reflexivity. Qed.
Lemma talks_nil : talks [] [].
Proof. apply mute_talks, talk_nil. Qed.
Definition blank (c : client) : client := set_errno 0 (set_resp None (set_log None 0%N c)).
Definition quiet (e : env) : Prop := e_send e = [] /\ e_bputs e = [] /\ e_fcntl e = [].
(** The client is [c0], up to its log, last reply and last error, and the
    environment is [e0]. *)
Definition ready (c0 : client) (e0 : env) (n : N) (s : st) : Prop :=
  blank (s_c s) = blank c0 /\ s_e s = e0 /\ room n (s_c s).
(** [m] returns [a] after the exchanges [l]; it uses [k] bytes of the log. *)
Definition goes {A} (c0 : client) (e0 : env) (m : M A) (a : A) (l : list (str * str)) (c1 : client) (e1 : env) (k : N) : Prop :=
  forall n s, (n + k <= LIM)%N -> ready c0 e0 n s ->
  exists s' t, m s = (Done a, s') /\ ready c1 e1 (n + k) s' /\ s_t s' = s_t s ++ t /\ talks t l.

Lemma ready_more : forall c e n n' s, (n <= n')%N -> ready c e n s -> ready c e n' s.
Proof. intros c e n n' s L (A1 & A2 & G & lg & A3 & A4). split; [exact A1|]. split; [exact A2|]. split; [exact G|]. exists lg. split; [exact A3|lia]. Qed.
Lemma goes_more : forall {A} c0 e0 (m : M A) a l c1 e1 k k', goes c0 e0 m a l c1 e1 k -> (k <= k')%N -> goes c0 e0 m a l c1 e1 k'.
Proof.
  intros A c0 e0 m a l c1 e1 k k' H L n s N R. destruct (H n s ltac:(lia) R) as (s' & t & E & R' & T & K). exists s', t.
  split; [exact E|]. split; [eapply ready_more; [|exact R']; lia|]. auto.
Qed.
Lemma goes_bind : forall {A C} c0 e0 (m : M A) a l1 c1 e1 k1 (f : A -> M C) b l2 c2 e2 k2,
  goes c0 e0 m a l1 c1 e1 k1 -> goes c1 e1 (f a) b l2 c2 e2 k2 -> goes c0 e0 (bind m f) b (l1 ++ l2) c2 e2 (k1 + k2).
Proof.
  intros A C c0 e0 m a l1 c1 e1 k1 f b l2 c2 e2 k2 H1 H2 n s N R.
  destruct (H1 n s ltac:(lia) R) as (s1 & t1 & E1 & R1 & T1 & K1). destruct (H2 (n + k1)%N s1 ltac:(lia) R1) as (s2 & t2 & E2 & R2 & T2 & K2).
  exists s2, (t1 ++ t2). unfold bind. rewrite E1, E2. split; [reflexivity|]. split; [rewrite N.add_assoc; exact R2|].
  split; [rewrite T2, T1, app_assoc; reflexivity|]. apply talks_app; assumption.
Qed.
Lemma goes_then : forall {A C} c0 e0 (m : M A) a c1 e1 k1 (f : A -> M C) b l c2 e2 k2,
  goes c0 e0 m a [] c1 e1 k1 -> goes c1 e1 (f a) b l c2 e2 k2 -> goes c0 e0 (bind m f) b l c2 e2 (k1 + k2).
Proof. intros. exact (goes_bind _ _ _ _ [] _ _ _ _ _ l _ _ _ H H0). Qed.
Lemma goes_ret : forall {A} c0 e0 (a : A), goes c0 e0 (ret a) a [] c0 e0 0.
Proof. intros A c0 e0 a n s N R. exists s, []. rewrite app_nil_r, N.add_0_r. split; [reflexivity|]. split; [exact R|]. split; [reflexivity|apply talks_nil]. Qed.
Lemma goes_last : forall {A C} c0 e0 (m : M A) a l c1 e1 k (f : A -> M C) b,
  goes c0 e0 m a l c1 e1 k -> goes c1 e1 (f a) b [] c1 e1 0 -> goes c0 e0 (bind m f) b l c1 e1 k.
Proof. intros. pose proof (goes_bind _ _ _ _ _ _ _ _ _ _ _ _ _ _ H H0) as X. rewrite app_nil_r, N.add_0_r in X. exact X. Qed.
Lemma goes_getc : forall {C} c0 e0 (f : client -> M C) b l c1 e1 k,
  (forall c, blank c = blank c0 -> goes c0 e0 (f c) b l c1 e1 k) -> goes c0 e0 (bind getc f) b l c1 e1 k.
Proof. intros C c0 e0 f b l c1 e1 k H n s N R. unfold bind, getc. exact (H (s_c s) (proj1 R) n s N R). Qed.
Lemma goes_gete : forall {C} c0 e0 (f : env -> M C) b l c1 e1 k, goes c0 e0 (f e0) b l c1 e1 k -> goes c0 e0 (bind gete f) b l c1 e1 k.
Proof. intros C c0 e0 f b l c1 e1 k H n s N R. unfold bind, gete. destruct R as (A1 & A2 & A3). rewrite A2. apply (H n s N). split; [exact A1|]. split; [exact A2|exact A3]. Qed.
Lemma goes_upde : forall c0 e0 g, goes c0 e0 (upde g) tt [] c0 (g e0) 0.
Proof.
  intros c0 e0 g n s N (A1 & A2 & A3). eexists _, []. split; [reflexivity|]. rewrite N.add_0_r. split; [|split; [symmetry; apply app_nil_r|apply talks_nil]].
  split; [exact A1|]. split; [cbn [s_e]; rewrite A2; reflexivity|exact A3].
Qed.
(** A change of the client that keeps the log. *)
Lemma goes_updc : forall c0 e0 g, (forall c, blank (g c) = g (blank c)) -> (forall c, c_log (g c) = c_log c /\ c_logsize (g c) = c_logsize c) ->
  (forall c, blank c = blank c0 -> blank (g c) = blank (g c0)) -> goes c0 e0 (updc g) tt [] (g c0) e0 0.
Proof.
  intros c0 e0 g _ Hl Hb n s N (A1 & A2 & G & lg & A3 & A4). eexists _, []. split; [reflexivity|]. rewrite N.add_0_r.
  split; [|split; [symmetry; apply app_nil_r|apply talks_nil]]. split; [exact (Hb _ A1)|]. split; [exact A2|].
  destruct (Hl (s_c s)) as [L1 L2]. cbn [s_c]. split; [unfold good_log in *; rewrite L1, L2; exact G|]. exists lg. rewrite L1. auto.
Qed.
Lemma goes_emit : forall c0 e0 ev, deaf ev -> goes c0 e0 (emit ev) tt [] c0 e0 0.
Proof.
  intros c0 e0 ev D n s N R. eexists _, [ev]. split; [reflexivity|]. rewrite N.add_0_r. split; [exact R|]. split; [reflexivity|].
  apply mute_talks. unfold talk. pose proof (dialogue_deaf [ev] [] ltac:(repeat constructor; exact D)) as X. exact X.
Qed.
Lemma goes_log : forall c0 e0 i p, goes c0 e0 (addLog i p) tt [] c0 e0 (2 * slen i + slen p + 3).
Proof.
  intros c0 e0 i p n s N (A1 & A2 & A3). destruct (addLog_room i p n s A3 ltac:(lia)) as (lg & k & E & Rm).
  exists (log_state s lg k), []. split; [exact E|]. split; [|split; [symmetry; apply app_nil_r|apply talks_nil]].
  split; [exact A1|]. split; [exact A2|]. rewrite !N.add_assoc. exact Rm.
Qed.
Lemma goes_logc : forall c0 e0 i, goes c0 e0 (logc i) tt [] c0 e0 (2 * slen i + 4).
Proof. intros c0 e0 i. eapply goes_more; [apply goes_log|]. change (slen (B "c")) with 1%N. lia. Qed.
Lemma goes_logs : forall c0 e0 i, goes c0 e0 (logs i) tt [] c0 e0 (2 * slen i + 4).
Proof. intros c0 e0 i. eapply goes_more; [apply goes_log|]. change (slen (B "s")) with 1%N. lia. Qed.
Lemma goes_resp : forall c0 e0 x, goes c0 e0 (setLastServerResponse x) tt [] c0 e0 0.
Proof.
  intros c0 e0 x n s N (A1 & A2 & A3). eexists _, []. split; [reflexivity|]. rewrite N.add_0_r.
  split; [|split; [symmetry; apply app_nil_r|apply talks_nil]]. split; [exact A1|]. split; [exact A2|exact A3].
Qed.
Lemma goes_fcntl : forall c0 e0 md, quiet e0 -> goes c0 e0 (sys_fcntl md) None [] c0 e0 0.
Proof.
  intros c0 e0 md (Q1 & Q2 & Q3) n s N R. destruct R as (A1 & A2 & A3). unfold sys_fcntl, bind, getc, gete. rewrite A2, Q3.
  eexists _, _. split; [reflexivity|]. rewrite N.add_0_r. split; [split; [exact A1|split; [exact A2|exact A3]]|]. split; [reflexivity|apply mute_talks; reflexivity].
Qed.
Lemma goes_nonblocking : forall c0 e0, quiet e0 -> goes c0 e0 setSocketToNonBlocking 0 [] c0 e0 0.
Proof.
  intros c0 e0 Q. unfold setSocketToNonBlocking. eapply (goes_then _ _ _ _ _ _ 0%N); [apply goes_fcntl, Q|].
  eapply (goes_then _ _ _ _ _ _ 0%N); [apply goes_ret|]. eapply (goes_then _ _ _ _ _ _ 0%N); [apply goes_fcntl, Q|apply goes_ret].
Qed.
Lemma goes_blocking : forall c0 e0, quiet e0 -> goes c0 e0 setSocketToBlocking 0 [] c0 e0 0.
Proof.
  intros c0 e0 Q. unfold setSocketToBlocking. eapply (goes_then _ _ _ _ _ _ 0%N); [apply goes_fcntl, Q|].
  eapply (goes_then _ _ _ _ _ _ 0%N); [apply goes_fcntl, Q|apply goes_ret].
Qed.

(** ** One exchange *)
Notation burst := (fun r => [RData r; RErr 11]).
Definition fits (r : str) : Prop := no_nul r /\ (3 < length r)%nat /\ (length r < 1024)%nat.
Definition arriving (tls : bool) (rs : list str) (rest : list recv_res) (e : env) : env :=
  if tls then set_bread (map RData rs ++ rest) e else set_recv (flat_map burst rs ++ rest) e.
Definition heard (tls : bool) (r : str) : str := if tls then drop_last_byte r else r.
Lemma quiet_arriving : forall tls rs rest e, quiet e -> quiet (arriving tls rs rest e).
Proof. intros [] rs rest e Q; exact Q. Qed.
Lemma blank_timeout : forall c c0, blank c = blank c0 -> c_timeout c = c_timeout c0.
Proof. intros c c0 H. exact (f_equal c_timeout H). Qed.
Lemma blank_kind : forall c c0, blank c = blank c0 -> c_kind c = c_kind c0.
Proof. intros c c0 H. exact (f_equal c_kind H). Qed.
Lemma blank_rawptr : forall c c0, blank c = blank c0 -> c_rawptr c = c_rawptr c0.
Proof. intros c c0 H. exact (f_equal c_rawptr H). Qed.
Lemma blank_bio : forall c c0, blank c = blank c0 -> c_bio c = c_bio c0.
Proof. intros c c0 H. exact (f_equal c_bio H). Qed.
Lemma blank_batch : forall c c0, blank c = blank c0 -> c_batch c = c_batch c0.
Proof. intros c c0 H. exact (f_equal c_batch H). Qed.

Lemma fits_first : forall r, fits r -> firstn 1024 r = r.
Proof. intros r (_ & _ & L). apply firstn_all2. apply Nat.lt_le_incl, L. Qed.
Lemma raw_burst1 : forall fd tmo r more, fits r -> (0 < tmo)%N ->
  raw_loop fd tmo 0 false [] ([RData r; RErr 11] ++ more) = (Done (0%N, true, r), [EvRecv fd (RData r); EvRecv fd (RErr 11)], more).
Proof.
  intros fd tmo r more F Ht. pose proof (fits_first r F) as E. destruct F as (Nn & L3 & L). cbn [app raw_loop].
  assert (R : rbytes (RData r) = r) by exact E. rewrite R. destruct r as [|x r]; [cbn in L3; lia|]. set (y := x :: r) in *.
  destruct (Nat.leb_spec SERVERRESPONSE_BUFFER_LENGTH (length y)) as [X|X].
  { exfalso. change SERVERRESPONSE_BUFFER_LENGTH with 1024%nat in X. exact (Nat.lt_irrefl _ (Nat.lt_le_trans _ _ _ L X)). }
  destruct (N.ltb_spec 0 tmo); [|lia]. cbn [rbytes is_err andb app]. rewrite (cstr_nonul y Nn). reflexivity.
Qed.
Lemma nonblocking_now : forall c0 e0 n s, quiet e0 -> ready c0 e0 n s -> exists s' t, setSocketToNonBlocking s = (Done 0, s') /\ ready c0 e0 n s' /\
  s_t s' = s_t s ++ t /\ Forall deaf t.
Proof.
  intros c0 e0 n s (Q1 & Q2 & Q3) (A1 & A2 & A3). unfold setSocketToNonBlocking, sys_fcntl, bind, getc, gete, emit, ret. rewrite A2. cbv beta iota. rewrite Q3. cbv beta iota. cbn [s_e s_c s_t]. rewrite ?A2, Q3.
  eexists _, _. split; [reflexivity|]. split; [split; [exact A1|split; [first [exact A2|reflexivity]|exact A3]]|]. split; [cbn [s_t]; rewrite <- app_assoc; reflexivity|]. repeat constructor.
Qed.
Lemma raw_reply_now : forall c0 e0 r rs rest n s, quiet e0 -> (0 < c_timeout c0)%N -> fits r -> ready c0 (arriving false (r :: rs) rest e0) n s ->
  (n + (2 * slen r + 4) <= LIM)%N ->
  exists s' t, getRawCommandReply s = (Done (extractReturnCode (Some r)), s') /\ ready c0 (arriving false rs rest e0) (n + (2 * slen r + 4)) s' /\
    s_t s' = s_t s ++ t /\ dialogue t = (r, []) /\ c_resp (s_c s') = Some r.
Proof.
  intros c0 e0 r rs rest n s Q Tm F R N. unfold getRawCommandReply.
  destruct (nonblocking_now _ _ n s (quiet_arriving false (r :: rs) rest e0 Q) R) as (s1 & t1 & E1 & R1 & T1 & D1). unfold bind at 1. rewrite E1.
  unfold bind at 1, getc. unfold bind at 1, gete. destruct R1 as (A1 & A2 & A3). rewrite A2.
  assert (Rv : e_recv (arriving false (r :: rs) rest e0) = [RData r; RErr 11] ++ flat_map burst rs ++ rest) by (cbn [arriving e_recv set_recv flat_map]; rewrite <- app_assoc; reflexivity).
  rewrite Rv. rewrite (raw_burst1 _ _ r _ F) by (rewrite (blank_timeout _ _ A1); exact Tm).
  unfold bind at 1, upde. unfold bind at 1, emits. unfold bind at 1, lift. cbn [s_c s_e s_t].
  match goal with |- context [bind setSocketToBlocking _ ?s] => set (s2 := s) end.
  assert (R2 : ready c0 (arriving false rs rest e0) n s2). { split; [exact A1|]. split; [cbn [s2 s_e]; rewrite A2; reflexivity|exact A3]. }
  destruct (goes_blocking c0 _ (quiet_arriving false rs rest e0 Q) n s2 ltac:(lia) R2) as (s3 & t3 & E3 & R3 & T3 & K3). unfold bind at 1. rewrite E3. rewrite orb_true_r.
  destruct (goes_resp c0 _ r (n + 0)%N s3 ltac:(lia) R3) as (s4 & t4 & E4 & R4 & T4 & K4). unfold bind at 1. rewrite E4.
  assert (C4 : c_resp (s_c s4) = Some r). { injection E4 as <-. cbn [s_c c_resp set_resp]. rewrite (cstr_nonul r (proj1 F)). reflexivity. }
  rewrite !N.add_0_r in R4. destruct R4 as (B1 & B2 & B3). destruct (addLog_room r (B "s") n s4 B3) as (lg & k & E5 & Rm). { change (slen (B "s")) with 1%N. lia. }
  unfold bind at 1, logs. rewrite E5.
  eexists _, (t1 ++ [EvRecv (c_sock (s_c s1)) (RData r); EvRecv (c_sock (s_c s1)) (RErr 11)] ++ t3 ++ t4). split; [reflexivity|]. split; [|split; [|split]].
  - apply (ready_more _ _ (n + 2 * slen r + slen (B "s") + 3)); [change (slen (B "s")) with 1%N; lia|]. split; [exact B1|]. split; [exact B2|exact Rm].
  - cbn [s_t log_state]. rewrite T4, T3. cbn [s_t s2]. rewrite T1, !app_assoc. reflexivity.
  - rewrite dialogue_deaf by exact D1. cbn [app dialogue]. rewrite (proj1 (talks_app _ _ _ _ K3 K4) : dialogue _ = _). rewrite (fits_first r F), app_nil_r, (cstr_nonul r (proj1 F)). reflexivity.
  - exact C4.
Qed.
Definition writes_full (d : str) (ev : event) : Prop := (exists fd, ev = EvSend fd d WFull) \/ (exists b, ev = EvPuts b d WFull).
Lemma exchange_app : forall ev d r t1, writes_full d ev -> dialogue t1 = (r, []) -> talks ([ev] ++ t1) [(d, r)].
Proof. 
  intros ev d r t1 W D. split.
  - destruct W as [(fd & ->)|(b & ->)]; unfold talk; cbn [app dialogue]; rewrite D; reflexivity.
  - apply full_app; [|apply mute_full; unfold exchanges; rewrite D; reflexivity]. destruct W as [(fd & ->)|(b & ->)]; intros e [<-|[]]; reflexivity.
 Qed.
Lemma send_now : forall c0 e0 n d s, quiet e0 -> ready c0 e0 n s ->
  exists fd s', sys_send d s = (Done WFull, s') /\ ready c0 e0 n s' /\ s_t s' = s_t s ++ [EvSend fd d WFull].
Proof.
  intros c0 e0 n d s (Q1 & Q2 & Q3) (A1 & A2 & A3). unfold sys_send, bind, getc, gete. rewrite A2, Q1. eexists _, _. split; [reflexivity|]. split; [|reflexivity].
  split; [exact A1|split; [exact A2|exact A3]].
Qed.
Lemma puts_now : forall c0 e0 n b d s, quiet e0 -> ready c0 e0 n s ->
  exists s', sys_puts b d s = (Done WFull, s') /\ ready c0 e0 n s' /\ s_t s' = s_t s ++ [EvPuts (bio_id b) d WFull].
Proof.
  intros c0 e0 n b d s (Q1 & Q2 & Q3) (A1 & A2 & A3). unfold sys_puts, bind, gete. rewrite A2, Q2. eexists. split; [reflexivity|]. split; [|reflexivity].
  split; [exact A1|split; [exact A2|exact A3]].
Qed.
(** [m] writes [d], hears [r] and returns its code. *)
Definition asks (tls : bool) (c0 : client) (e0 : env) (m : M Z) (d r : str) (rs : list str) (rest : list recv_res) : Prop :=
  forall n s, ready c0 (arriving tls (r :: rs) rest e0) n s -> (n + (2 * slen r + 4) <= LIM)%N ->
  exists s' t, m s = (Done (extractReturnCode (Some (heard tls r))), s') /\ ready c0 (arriving tls rs rest e0) (n + (2 * slen r + 4)) s' /\
    s_t s' = s_t s ++ t /\ talks t [(d, r)] /\ c_resp (s_c s') = Some (heard tls r).
Lemma asks_raw3 : forall c0 e0 d r rs rest err tmo, quiet e0 -> (0 < c_timeout c0)%N -> fits r -> extractReturnCode (Some (heard false r)) <> -1 ->
  asks false c0 e0 (sendRaw3 d err tmo) (cstr d) r rs rest.
Proof.
  intros c0 e0 d r rs rest err tmo Q Tm F Nm n s R N. unfold sendRaw3, sendRaw2, sendRaw2_with.
  destruct (send_now _ _ _ (cstr d) s (quiet_arriving false (r :: rs) rest _ Q) R) as (fd & s1 & E1 & R1 & T1).
  unfold bind at 1. unfold bind at 1. rewrite E1. cbn [ret Z.eqb negb].
  destruct (raw_reply_now _ _ _ _ _ _ s1 Q Tm F R1 N) as (s2 & t2 & E2 & R2 & T2 & D2 & C2). unfold bind at 1. rewrite E2. cbn [heard] in Nm.
  destruct (Z.eqb_spec (extractReturnCode (Some r)) (-1)) as [X|X]; [contradiction|]. cbn [negb].
  exists s2, ([EvSend fd (cstr d) WFull] ++ t2). split; [reflexivity|]. split; [exact R2|]. split; [rewrite T2, T1, <- app_assoc; reflexivity|].
  split; [|exact C2]. apply exchange_app; [left; eauto|exact D2].
Qed.

Lemma tls_reply_now : forall c0 e0 r rs rest n s b, fits r -> (0 < c_timeout c0)%N -> c_bio c0 = Some b -> ready c0 (arriving true (r :: rs) rest e0) n s ->
  (n + (2 * slen r + 4) <= LIM)%N ->
  exists s' t, getServerReplyTLS s = (Done (extractReturnCode (Some (drop_last_byte r))), s') /\ ready c0 (arriving true rs rest e0) (n + (2 * slen r + 4)) s' /\
    s_t s' = s_t s ++ t /\ dialogue t = (r, []) /\ c_resp (s_c s') = Some (drop_last_byte r).
Proof.
  intros c0 e0 r rs rest n s b F Tm Hb (A1 & A2 & A3) N. unfold getServerReplyTLS, wait_bio. unfold bind at 1. unfold bind at 1, getc. rewrite (blank_bio _ _ A1), Hb.
  unfold bind at 1, gete. rewrite A2. pose proof (fits_first r F) as E. cbn [arriving e_bread set_bread map app wait_loop].
  assert (Rb : rbytes (RData r) = r) by exact E. rewrite Rb. destruct r as [|x0 r0] eqn:Er; [destruct F as (_ & L & _); cbn in L; lia|]. rewrite <- Er in *.
  rewrite (blank_timeout _ _ A1). destruct (N.ltb_spec 0 (c_timeout c0)); [|lia]. unfold bind at 1, upde. unfold bind at 1, emits, lift. cbv zeta. cbn [s_c s_e s_t].
  match goal with |- context [bind (setLastServerResponse _) _ ?s] => set (s1 := s) end.
  assert (R1 : ready c0 (arriving true rs rest e0) n s1). { split; [exact A1|]. split; [cbn [s1 s_e]; rewrite A2; reflexivity|exact A3]. }
  destruct (goes_resp c0 _ (drop_last_byte r) n s1 ltac:(lia) R1) as (s2 & t2 & E2 & R2 & T2 & K2). unfold bind at 1. rewrite E2. rewrite N.add_0_r in R2.
  assert (Dl : (slen (drop_last_byte r) <= slen r)%N).
  { unfold drop_last_byte. pose proof (cstr_slen (firstn (length r - 1) r)) as X. pose proof (firstn_length (length r - 1) r) as Y. unfold slen in *. lia. }
  destruct (addLog_room (drop_last_byte r) (B "s") n s2 (proj2 (proj2 R2))) as (lg & k & E3 & Rm). { change (slen (B "s")) with 1%N. lia. }
  unfold bind at 1, logs. rewrite E3. eexists _, ([EvRead (bio_id b) (RData r)] ++ t2). split; [reflexivity|]. split; [|split; [|split]].
  - destruct R2 as (X1 & X2 & X3). apply (ready_more _ _ (n + 2 * slen (drop_last_byte r) + slen (B "s") + 3)); [change (slen (B "s")) with 1%N; lia|]. split; [exact X1|split; [exact X2|exact Rm]].
  - cbn [s_t log_state]. rewrite T2. cbn [s1 s_t]. rewrite <- app_assoc. reflexivity.
  - cbn [app dialogue]. destruct K2 as [K2 _]. unfold talk in K2. rewrite K2, E, app_nil_r, (cstr_nonul r (proj1 F)). reflexivity.
  - injection E2 as <-. cbn [s_c c_resp log_state set_log set_resp]. unfold drop_last_byte. rewrite cstr_cstr. reflexivity.
Qed.
Lemma asks_tls : forall c0 e0 d r rs rest err tmo b, quiet e0 -> (0 < c_timeout c0)%N -> fits r -> extractReturnCode (Some (heard true r)) <> -1 ->
  c_kind c0 <> KPlain -> c_bio c0 = Some b -> asks true c0 e0 (sendFeedbackTLS d err tmo) (cstr d) r rs rest.
Proof.
  intros c0 e0 d r rs rest err tmo b Q Tm F Nm K Hb n s R N. unfold sendFeedbackTLS, bind at 1, getc. rewrite (blank_bio _ _ (proj1 R)), Hb.
  destruct (puts_now _ _ _ b (cstr d) s (quiet_arriving true (r :: rs) rest _ Q) R) as (s1 & E1 & R1 & T1). unfold bind at 1. rewrite E1.
  destruct (tls_reply_now _ _ _ _ _ _ s1 b F Tm Hb R1 N) as (s2 & t2 & E2 & R2 & T2 & D2 & C2).
  assert (G : getServerReply s1 = getServerReplyTLS s1). { unfold getServerReply, bind at 1, getc. rewrite (blank_kind _ _ (proj1 R1)). destruct (c_kind c0); [contradiction|reflexivity|reflexivity]. }
  unfold bind at 1. rewrite G, E2. cbn [heard] in Nm. destruct (Z.eqb_spec (extractReturnCode (Some (drop_last_byte r))) (-1)) as [X|X]; [contradiction|]. cbn [negb].
  exists s2, ([EvPuts (bio_id b) (cstr d) WFull] ++ t2). split; [reflexivity|]. split; [exact R2|]. split; [rewrite T2, T1, <- app_assoc; reflexivity|].
  split; [|exact C2]. apply exchange_app; [right; eauto|exact D2].
Qed.
(** The channel of the mail: over TLS or in clear. *)
Lemma asks_fb : forall tls c0 e0 d r rs rest err tmo, quiet e0 -> (0 < c_timeout c0)%N -> fits r -> extractReturnCode (Some (heard tls r)) <> -1 ->
  carries tls c0 -> asks tls c0 e0 (sendFeedbackPtr d err tmo) (cstr d) r rs rest.
Proof.
  intros tls c0 e0 d r rs rest err tmo Q Tm F Nm Ch n s R N. unfold sendFeedbackPtr, bind at 1, getc. rewrite (blank_rawptr _ _ (proj1 R)).
  destruct tls; cbn [carries] in Ch.
  - destruct Ch as (K & Rp & b & Hb). rewrite Rp. unfold sendFeedback, bind at 1, getc. rewrite (blank_kind _ _ (proj1 R)).
    destruct (c_kind c0) eqn:Ek; [contradiction| |]; apply (asks_tls c0 e0 d r rs rest err tmo b); try assumption; rewrite Ek; discriminate.
  - destruct (c_rawptr c0) eqn:Rp; [apply (asks_raw3 c0 e0); assumption|]. destruct Ch as [K|K]; [|congruence].
    unfold sendFeedback, bind at 1, getc. rewrite (blank_kind _ _ (proj1 R)), K. apply (asks_raw3 c0 e0); assumption.
Qed.
Lemma goes_fb : forall tls c0 e0 d r rs rest err tmo code, quiet e0 -> (0 < c_timeout c0)%N -> fits r -> extractReturnCode (Some (heard tls r)) = code -> code <> -1 ->
  carries tls c0 -> goes c0 (arriving tls (r :: rs) rest e0) (sendFeedbackPtr d err tmo) code [(cstr d, r)] c0 (arriving tls rs rest e0) (2 * slen r + 4).
Proof.
  intros tls c0 e0 d r rs rest err tmo code Q Tm F Ec Nm Ch n s N R. subst code. destruct (asks_fb tls c0 e0 d r rs rest err tmo Q Tm F Nm Ch n s R N) as (s' & t & E & R' & T & K & _). eauto 6.
Qed.
Lemma goes_fb' : forall tls c0 e0 d d' r rs rest err tmo code, cstr d = d' -> quiet e0 -> (0 < c_timeout c0)%N -> fits r -> extractReturnCode (Some (heard tls r)) = code -> code <> -1 ->
  carries tls c0 -> goes c0 (arriving tls (r :: rs) rest e0) (sendFeedbackPtr d err tmo) code [(d', r)] c0 (arriving tls rs rest e0) (2 * slen r + 4).
Proof. intros tls c0 e0 d d' r rs rest err tmo code <-. apply goes_fb. Qed.
Lemma goes_cmd : forall tls c0 e0 d err, quiet e0 -> carries tls c0 -> goes c0 e0 (sendCommandPtr d err) 0 [(cstr d, [])] c0 e0 0.
Proof.
  intros tls c0 e0 d err Q Ch n s N R. unfold sendCommandPtr, sendCommandPtr_with, bind at 1, getc. rewrite (blank_rawptr _ _ (proj1 R)), (blank_kind _ _ (proj1 R)). rewrite N.add_0_r.
  assert (G : exists s' t, sendRaw2_with cleanup d err s = (Done 0, s') /\ ready c0 e0 n s' /\ s_t s' = s_t s ++ t /\ talks t [(cstr d, [])]).
  { unfold sendRaw2_with. destruct (send_now _ _ _ (cstr d) s Q R) as (fd & s1 & E1 & R1 & T1). unfold bind at 1. rewrite E1. exists s1, [EvSend fd (cstr d) WFull]. split; [reflexivity|]. split; [exact R1|]. split; [exact T1|]. split; [reflexivity|]. intros e [<-|[]]. reflexivity. }
  destruct tls; cbn [carries] in Ch.
  - destruct Ch as (K & Rp & b & Hb). rewrite Rp.
    assert (G' : exists s' t, sendCommandTLS_with cleanup d err s = (Done 0, s') /\ ready c0 e0 n s' /\ s_t s' = s_t s ++ t /\ talks t [(cstr d, [])]).
    { unfold sendCommandTLS_with, bind at 1, getc. rewrite (blank_bio _ _ (proj1 R)), Hb. destruct (puts_now _ _ _ b (cstr d) s Q R) as (s1 & E1 & R1 & T1).
      unfold bind at 1. rewrite E1. exists s1, [EvPuts (bio_id b) (cstr d) WFull]. split; [reflexivity|]. split; [exact R1|]. split; [exact T1|]. split; [reflexivity|]. intros e [<-|[]]. reflexivity. }
    destruct (c_kind c0); [contradiction|exact G'|exact G'].
  - destruct (c_rawptr c0) eqn:Rp; [exact G|]. destruct Ch as [K|K]; [|congruence]. rewrite K. exact G.
Qed.

Lemma goes_cmd' : forall tls c0 e0 d d' err, cstr d = d' -> quiet e0 -> carries tls c0 -> goes c0 e0 (sendCommandPtr d err) 0 [(d', [])] c0 e0 0.
Proof. intros tls c0 e0 d d' err <-. apply goes_cmd. Qed.
(** ** The mail *)
(** What is logged about exchanges. *)
Fixpoint volume (l : list (str * str)) : N := match l with [] => 0%N | (d, r) :: l' => (2 * slen d + 2 * slen r + 8 + volume l')%N end.
Lemma volume_app : forall a b, volume (a ++ b) = (volume a + volume b)%N.
Proof. induction a as [|[d r] a IH]; intros b; [reflexivity|]. cbn [volume app]. rewrite IH. lia. Qed.
Lemma positive_fits : forall code r, positive code r -> fits r.
Proof. intros code r (_ & H). exact H. Qed.
Lemma heard_start : forall tls p r, length p = 3%nat -> starts_with p r -> fits r -> starts_with p (heard tls r).
Proof.
  intros [] p r L [x E] (Nn & Hl & _); [|exists x; exact E]. subst r. rewrite app_length, L in Hl. unfold heard, drop_last_byte.
  rewrite app_length, L. replace (3 + length x - 1)%nat with (length p + (length x - 1))%nat by lia. rewrite firstn_app_2.
  rewrite cstr_nonul; [eexists; reflexivity|]. intros X. apply Nn. apply in_app_or in X as [X|X]; apply in_or_app; [left; exact X|right]. 
  rewrite <- (firstn_skipn (length x - 1) x). apply in_or_app. left. exact X.
Qed.
Lemma positive_code : forall tls r c1 c2 c3 v1 v2 v3 code, B code = [c1; c2; c3] -> digit_value c1 v1 -> digit_value c2 v2 -> digit_value c3 v3 -> positive code r ->
  extractReturnCode (Some (heard tls r)) = 100 * v1 + 10 * v2 + v3.
Proof.
  intros tls r c1 c2 c3 v1 v2 v3 code E D1 D2 D3 (S & F). destruct (heard_start tls (B code) r) as [x X]; [rewrite E; reflexivity|exact S|exact F|].
  rewrite X, E. cbn [app]. apply extract_three_digits; assumption.
Qed.
Ltac digits := split; [lia|reflexivity].
Lemma p250 : forall tls r, positive "250" r -> extractReturnCode (Some (heard tls r)) = 250.
Proof. intros tls r H. apply (positive_code tls r "2"%char "5"%char "0"%char 2 5 0 "250"); try reflexivity; try digits. exact H. Qed.
Lemma p354 : forall tls r, positive "354" r -> extractReturnCode (Some (heard tls r)) = 354.
Proof. intros tls r H. apply (positive_code tls r "3"%char "5"%char "4"%char 3 5 4 "354"); try reflexivity; try digits. exact H. Qed.
Lemma p220 : forall tls r, positive "220" r -> extractReturnCode (Some (heard tls r)) = 220.
Proof. intros tls r H. apply (positive_code tls r "2"%char "2"%char "0"%char 2 2 0 "220"); try reflexivity; try digits. exact H. Qed.
Lemma p235 : forall tls r, positive "235" r -> extractReturnCode (Some (heard tls r)) = 235.
Proof. intros tls r H. apply (positive_code tls r "2"%char "3"%char "5"%char 2 3 5 "235"); try reflexivity; try digits. exact H. Qed.
Lemma p334 : forall tls r, positive "334" r -> extractReturnCode (Some (heard tls r)) = 334.
Proof. intros tls r H. apply (positive_code tls r "3"%char "3"%char "4"%char 3 3 4 "334"); try reflexivity; try digits. exact H. Qed.

Section mail.
Variables (tls : bool) (c0 : client) (e0 : env) (rest : list recv_res).
Hypothesis Q : quiet e0.
Hypothesis Tm : (0 < c_timeout c0)%N.
Hypothesis Ch : carries tls c0.

(** A logged command and its answer. *)
Lemma goes_step : forall d r rs err tmo code, fits r -> extractReturnCode (Some (heard tls r)) = code -> code <> -1 -> cstr d = d ->
  goes c0 (arriving tls (r :: rs) rest e0) (logc d;; sendFeedbackPtr d err tmo) code [(d, r)] c0 (arriving tls rs rest e0) (volume [(d, r)]).
Proof.
  intros d r rs err tmo code F E N Cd. eapply goes_more; [eapply goes_then; [apply goes_logc|]|].
  - apply goes_fb'; assumption.
  - cbn [volume]. lia.
Qed.
Lemma goes_from : forall a r rs, address_text_ok a -> positive "250" r ->
  goes c0 (arriving tls (r :: rs) rest e0) (mail_from_loop (mail_formats a) 0) 250 [(hd [] (sender_lines a), r)] c0 (arriving tls rs rest e0) (volume [(hd [] (sender_lines a), r)]).
Proof.
  intros a r rs Ta P. unfold mail_formats. cbn [mail_from_loop].
  assert (E : cstr (hd [] (mail_formats a)) = hd [] (sender_lines a)) by (rewrite <- (sender_text a Ta); reflexivity).
  eapply goes_more; [eapply goes_then; [apply goes_logc|]; eapply (goes_last _ _ _ 250); [|apply goes_ret]|].
  - cbn [sender_lines hd]. cbn [mail_formats sender_lines hd] in E. apply goes_fb'; try assumption; [exact (positive_fits _ _ P)|apply p250, P|discriminate].
  - cbn [volume hd sender_lines]. lia.
Qed.
Lemma goes_rcpts : forall l rs rs2, Forall address_text_ok l -> Forall (positive "250") rs -> length rs = length l ->
  goes c0 (arriving tls (rs ++ rs2) rest e0) (addMailRecipients l 250) 250 (combine (map rcpt_line l) rs) c0 (arriving tls rs2 rest e0) (volume (combine (map rcpt_line l) rs)).
Proof.
  induction l as [|a l IH]; intros rs rs2 Ta P L; (destruct rs as [|r rs]; cbn [length] in L; try lia); [apply goes_ret|].
  inversion Ta as [|? ? Ta1 Ta2]; subst. inversion P as [|? ? P1 P2]; subst. cbn [addMailRecipients map combine app].
  change ((rcpt_line a, r) :: combine (map rcpt_line l) rs) with ([(rcpt_line a, r)] ++ combine (map rcpt_line l) rs).
  eapply goes_more; [eapply goes_then; [apply goes_logc|]; eapply goes_bind|].
  - apply goes_fb'; try assumption; [apply rcpt_text, Ta1|exact (positive_fits _ _ P1)|apply p250, P1|discriminate].
  - cbn [Z.eqb Pos.eqb]. apply IH; [exact Ta2|exact P2|lia].
  - rewrite volume_app. cbn [volume]. unfold rcpt_command, rcpt_line. lia.
Qed.
Lemma goes_three : forall ls rs rs2, Forall address_text_ok (flat_map listed ls) -> Forall (positive "250") rs -> length rs = length (flat_map listed ls) ->
  goes c0 (arriving tls (rs ++ rs2) rest e0) (recipients_loop ls) 0 (combine (map rcpt_line (flat_map listed ls)) rs) c0 (arriving tls rs2 rest e0)
    (volume (combine (map rcpt_line (flat_map listed ls)) rs)).
Proof.
  induction ls as [|x ls IH]; intros rs rs2 Ta P L.
  - destruct rs; [|discriminate L]. apply goes_ret.
  - destruct x as [n|l]; cbn [recipients_loop flat_map listed app] in *; [apply IH; assumption|].
    apply Forall_app in Ta as [Ta1 Ta2]. rewrite app_length in L.
    rewrite <- (firstn_skipn (length l) rs) in P |- *. apply Forall_app in P as [P1 P2].
    set (r1 := firstn (length l) rs) in *. set (r2 := skipn (length l) rs) in *.
    assert (L1 : length r1 = length l) by (unfold r1; rewrite firstn_length; lia).
    assert (L2 : length r2 = length (flat_map listed ls)) by (unfold r2; rewrite skipn_length; lia).
    assert (E : combine (map rcpt_line (l ++ flat_map listed ls)) (r1 ++ r2) = combine (map rcpt_line l) r1 ++ combine (map rcpt_line (flat_map listed ls)) r2).
    { rewrite map_app. clearbody r1 r2. clear -L1. revert r1 L1. induction l as [|a l IHl]; intros r1 L1; (destruct r1; cbn [length] in L1; try lia); [reflexivity|].
      cbn [map app combine]. rewrite IHl by lia. reflexivity. }
    rewrite E, <- app_assoc. rewrite volume_app. eapply goes_bind; [apply goes_rcpts; assumption|]. cbn [Z.eqb Pos.eqb negb]. apply IH; assumption.
Qed.
Lemma goes_recipients : forall m rf rs rs2, text_ok m -> positive "250" rf -> Forall (positive "250") rs -> length rs = length (recipients m) ->
  goes c0 (arriving tls (rf :: rs ++ rs2) rest e0) (setMailRecipients m) 0 ((hd [] (sender_lines (m_from m)), rf) :: combine (map rcpt_line (recipients m)) rs) c0 (arriving tls rs2 rest e0)
    (volume ((hd [] (sender_lines (m_from m)), rf) :: combine (map rcpt_line (recipients m)) rs)).
Proof.
  intros m rf rs rs2 [Tf Tr _ _ _] Pf P L. unfold setMailRecipients.
  match goal with |- context [goes _ _ _ _ (?a :: ?b) _ _ _] => change (a :: b) with ([a] ++ b) end. rewrite volume_app.
  eapply goes_bind; [apply goes_from; assumption|]. cbn [Z.eqb Pos.eqb negb].
  assert (E : recipients m = flat_map listed [m_to m; m_cc m; m_bcc m]) by (cbn [flat_map]; rewrite app_nil_r; reflexivity).
  rewrite E in *. apply goes_three; assumption.
Qed.

Lemma silent_cons : forall d l, silent (d :: l) = [(d, [])] ++ silent l.
Proof. reflexivity. Qed.
Lemma goes_line : forall e1 d err, quiet e1 -> cstr d = d -> goes c0 e1 (logc d;; sendCommandPtr d err) 0 (silent [d]) c0 e1 (volume (silent [d])).
Proof.
  intros e1 d err Q1 Cd. eapply goes_more; [eapply goes_then; [apply goes_logc|]|].
  - apply (goes_cmd' tls); assumption.
  - cbn. lia.
Qed.
Lemma goes_address : forall e1 f a, quiet e1 -> well_formed a -> Forall (fun d => cstr d = d) (address_lines f a) ->
  goes c0 e1 (address_header f a) tt (silent (address_lines f a)) c0 e1 (volume (silent (address_lines f a))).
Proof.
  intros e1 f a Q1 W F. unfold address_lines in *. destruct a as [n|l]; cbn [address_header listed] in *.
  - destruct n; [apply goes_ret|]. destruct (W ltac:(discriminate)) as [l X]. discriminate X.
  - destruct l as [|x l]; [apply goes_ret|]. inversion F; subst. eapply (goes_last _ _ _ 0); [|apply goes_ret]. apply goes_line; assumption.
Qed.
Lemma goes_headers : forall m r rs, text_ok m -> message_ok m -> positive "354" r ->
  goes c0 (arriving tls (r :: rs) rest e0) (setMailHeaders m) 0 ((DATA_line, r) :: silent (data_headers m)) c0 (arriving tls rs rest e0) (volume ((DATA_line, r) :: silent (data_headers m))).
Proof.
  intros m r rs Tk (W1 & W2 & W3) P. pose proof (quiet_arriving tls rs rest e0 Q) as Q1.
  assert (F : Forall (fun d => cstr d = d) (data_headers m)).
  { pose proof (nn_header m Tk) as X. rewrite <- header_concat in X. apply nn_concat in X. apply Forall_forall. intros d Hd.
    rewrite <- X in Hd. apply in_map_iff in Hd as (d' & <- & _). apply cstr_cstr. }
  unfold data_headers in *. rewrite !Forall_app in F. destruct F as (F1 & F2 & F3 & F4). inversion F1 as [|? ? G1 _]; subst.
  inversion F4 as [|? ? G2 F5]; subst. inversion F5 as [|? ? G3 _]; subst.
  match goal with |- goes _ _ _ _ (?a :: ?b) _ _ _ => change (a :: b) with ([a] ++ b) end.
  unfold silent. rewrite !map_app. fold (silent (address_lines (B "To") (m_to m))). fold (silent (address_lines (B "Cc") (m_cc m))).
  unfold setMailHeaders. eapply goes_more; [eapply goes_then; [apply goes_logc|]; eapply goes_bind|].
  - change (B "DATA" ++ CRLF) with DATA_line. apply goes_fb'; try assumption; [reflexivity|exact (positive_fits _ _ P)|apply p354, P|discriminate].
  - cbn [Z.eqb Pos.eqb negb STATUS_CODE_START_MAIL_INPUT].
    eapply goes_bind; [unfold addMailHeader; apply goes_line; [exact Q1|exact G1]|]. cbn [Z.eqb negb].
    eapply goes_bind; [apply goes_address; assumption|]. eapply goes_bind; [apply goes_address; assumption|].
    change (map (fun l : str => (l, [])) [header_line (B "Subject") (m_subject m); CONTENT_TYPE_LINE]) with ([(header_line (B "Subject") (m_subject m), @nil ascii)] ++ [(CONTENT_TYPE_LINE, @nil ascii)]).
    eapply goes_then; [apply goes_logc|]. eapply (goes_bind _ _ _ 0); [|cbn [Z.eqb negb]; eapply goes_then; [apply goes_logc|]; eapply (goes_last _ _ _ 0); [|apply goes_ret]].
    + apply (goes_cmd' tls); assumption.
    + apply (goes_cmd' tls); assumption.
  - rewrite !volume_app. cbn [volume silent map]. change (slen DATA_line) with (slen (B "DATA" ++ CRLF)). change (slen (@nil ascii)) with 0%N. lia.
Qed.
Lemma goes_chunks : forall e1 l err, quiet e1 -> Forall (fun d => cstr d = d) l -> goes c0 e1 (send_chunks l err) 0 (silent l) c0 e1 0.
Proof.
  intros e1 l err Q1 H. induction H as [|d l Hd H IH]; [apply goes_ret|]. rewrite silent_cons. cbn [send_chunks].
  eapply (goes_bind _ _ _ 0 _ _ _ 0%N _ _ _ _ _ 0%N); [|cbn [Z.eqb negb]; exact IH]. apply (goes_cmd' tls); assumption.
Qed.
Lemma volume_silent : forall l, (2 * slen (concat l) <= volume (silent l))%N.
Proof. induction l as [|d l IH]; [cbn; lia|]. cbn [concat silent map volume]. rewrite slen_app. fold (silent l). change (slen (@nil ascii)) with 0%N. lia. Qed.
Definition goodbye (batch : bool) : list (str * str) := if batch then [] else [(QUIT_line, [])].
Lemma goes_body : forall m r rs, text_ok m -> message_ok m -> positive "250" r ->
  goes c0 (arriving tls (r :: rs) rest e0) (setMailBody m) 0
    (silent (body_chunks (body_text (e_fs e0) m)) ++ (END_line, r) :: goodbye (c_batch c0)) c0 (arriving tls rs rest e0)
    (4 + volume (silent (body_chunks (body_text (e_fs e0) m)) ++ (END_line, r) :: goodbye (c_batch c0))).
Proof.
  intros m r rs Tk (W1 & W2 & W3) P. pose proof (quiet_arriving tls rs rest e0 Q) as Q1. pose proof (quiet_arriving tls (r :: rs) rest e0 Q) as Q0.
  set (body := body_text (e_fs e0) m). destruct (body_chunks_spec body) as (Bc & _ & _).
  assert (F : Forall (fun d => cstr d = d) (body_chunks body)).
  { pose proof (nn_body (e_fs e0) m Tk) as X. fold body in X. rewrite <- Bc in X. apply nn_concat in X. apply Forall_forall. intros d Hd.
    rewrite <- X in Hd. apply in_map_iff in Hd as (d' & <- & _). apply cstr_cstr. }
  assert (E : lift (body_real (e_fs (arriving tls (r :: rs) rest e0)) m) = ret body).
  { assert (E : e_fs (arriving tls (r :: rs) rest e0) = e_fs e0) by (destruct tls; reflexivity). rewrite E, (body_real_defined _ m W3). reflexivity. }
  unfold setMailBody. eapply goes_more; [eapply goes_then; [apply goes_logc|]; apply goes_gete; rewrite E; eapply goes_then; [apply goes_ret|]; eapply goes_bind; [apply goes_chunks; assumption|]|].
  - cbn [Z.eqb negb]. eapply goes_then; [apply goes_logc|].
    match goal with |- goes _ _ _ _ (?a :: ?b) _ _ _ => change (a :: b) with ([a] ++ b) end. eapply goes_bind.
    + apply goes_fb'; try assumption; [reflexivity|exact (positive_fits _ _ P)|apply p250, P|discriminate].
    + cbn [Z.eqb Pos.eqb negb STATUS_CODE_REQUESTED_MAIL_ACTION_OK_OR_COMPLETED].
      apply (goes_getc _ _ _ _ _ _ _ (volume (goodbye (c_batch c0)))). intros c Bc'. rewrite (blank_batch _ _ Bc'). destruct (c_batch c0); [apply goes_ret|].
      eapply (goes_last _ _ _ 0); [|apply goes_ret]. unfold sendQuitCommand, sendQuit_with. apply (goes_line _ QUIT_line); [exact Q1|reflexivity].
  - rewrite volume_app. cbn [volume]. change (slen END_OF_DATA) with (slen END_line).
    assert (X : (slen (body_text_part m) <= slen (concat (body_chunks body)))%N).
    { rewrite Bc. unfold body, body_text, body_lines. destruct (listed (m_atts m)).
      - rewrite app_nil_r, body_text_part_eq. lia.
      - rewrite join_app; [|unfold text_lines; discriminate|intros X; apply app_eq_nil in X as [_ X]; discriminate X]. rewrite body_text_part_eq, slen_app. lia. }
    pose proof (volume_silent (body_chunks body)). lia.
Qed.
End mail.
