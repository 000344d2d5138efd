(** The communication log is a transcript of the session: rules. *)

From Coq Require Import Ascii String List NArith ZArith Bool Lia ZifyBool ZifyNat ZifyN.
From Verif Require Import Base Lib ModelUtil ModelBase64 ModelAddress ModelAttachment
  ModelErrors ModelReply ModelMessage ModelState ModelClient ModelWorld
  ProofSteps ProofWalk ProofPhases ProofEstablish ProofLog ProofSend ProofWorld ProofSafety
  SpecAddress SpecText SpecReply SpecMime SpecDialogue SpecAuth SpecSafety ProofReply ProofMime ProofDialogue ProofTls2 ProofAuth3 SpecTranscript.
Import ListNotations.
Open Scope Z_scope.

Lemma happened_app : forall a b, happened (a ++ b) = happened a ++ happened b.
Proof. intros. apply flat_map_app. Qed.
Lemma entries_app : forall a b, entries (a ++ b) = entries a ++ entries b.
Proof. intros. apply flat_map_app. Qed.
Lemma happened_did : forall evs, happened (map Did evs) = evs.
Proof. induction evs as [|ev evs IH]; [reflexivity|]. cbn. f_equal. exact IH. Qed.
Lemma entries_did : forall evs, entries (map Did evs) = [].
Proof. induction evs as [|ev evs IH]; [reflexivity|]. exact IH. Qed.

Section Transcript.
Variables (c0 : client) (e0 : env) (m0 : message) (t0 : list event) (base : str).

Notation T := (transcript c0 e0 m0).
Notation piece := (piece c0 e0 m0).
Definition cut (l : list item) : Prop := T l \/ interrupted c0 e0 m0 l.

(** The state [s] is the one reached after [l]. *)
Record Track (l : list item) (s : st) : Prop := mkTrack {
  k_trace : s_t s = t0 ++ happened l;
  k_log : log_of (s_c s) = base ++ log_text (entries l);
  k_good : good_log (s_c s);
  k_kind : c_kind (s_c s) = c_kind c0;
  k_server : c_server (s_c s) = c_server c0;
  k_port : c_port (s_c s) = c_port c0;
  k_timeout : c_timeout (s_c s) = c_timeout c0;
  k_cred : c_cred (s_c s) = c_cred c0;
  k_self : c_selfsigned (s_c s) = c_selfsigned c0;
  k_err : e_strerror (s_e s) = e_strerror e0;
  k_x509 : e_x509str (s_e s) = e_x509str e0;
  k_fs : e_fs (s_e s) = e_fs e0;
  k_bio : c_bio (s_c s) = None -> has_channel c0 l = false }.

Definition plays {A} (l : list item) (mm : M A) (s : st) (Q : A -> list item -> Prop) : Prop :=
  exists l', Track (l ++ l') (snd (mm s)) /\ match fst (mm s) with Done a => Q a (l ++ l') | _ => cut (l ++ l') end.
Definition tells {A} (l : list item) (mm : M A) (s : st) : Prop := plays l mm s (fun _ l' => T l').

Lemma plays_ret : forall A l (a : A) s (Q : A -> list item -> Prop), Track l s -> Q a l -> plays l (ret a) s Q.
Proof. intros A l a s Q K H. exists []. rewrite app_nil_r. split; [exact K|exact H]. Qed.
Lemma plays_stop : forall A l (o : outcome A) s (Q : A -> list item -> Prop), (forall a, o <> Done a) -> Track l s -> cut l -> plays l (lift o) s Q.
Proof. intros A l o s Q N K H. exists []. rewrite app_nil_r. split; [exact K|]. cbn. destruct o; try exact H. destruct (N a eq_refl). Qed.
Lemma plays_bind : forall A C l (mm : M A) (k : A -> M C) s (Q1 : A -> list item -> Prop) (Q : C -> list item -> Prop), plays l mm s Q1 ->
  (forall a l1 s1, mm s = (Done a, s1) -> Track (l ++ l1) s1 -> Q1 a (l ++ l1) -> plays (l ++ l1) (k a) s1 Q) -> plays l (bind mm k) s Q.
Proof.
  intros A C l mm k s Q1 Q (l1 & K & H) F. unfold plays, bind. destruct (mm s) as [o s1]. cbn [fst snd] in *.
  destruct o; try (exists l1; split; [exact K|exact H]).
  destruct (F a l1 s1 eq_refl K H) as (l2 & K2 & H2). exists (l1 ++ l2). rewrite app_assoc. split; [exact K2|exact H2].
Qed.
Lemma plays_mono : forall A l (mm : M A) s (Q1 Q2 : A -> list item -> Prop), plays l mm s Q1 -> (forall a l', Q1 a l' -> Q2 a l') -> plays l mm s Q2.
Proof. intros A l mm s Q1 Q2 (l1 & K & H) F. exists l1. split; [exact K|]. destruct (fst (mm s)); try exact H. apply F. exact H. Qed.
Lemma plays_getc : forall C l (k : client -> M C) s (Q : C -> list item -> Prop), plays l (k (s_c s)) s Q -> plays l (bind getc k) s Q.
Proof. intros C l k s Q H. exact H. Qed.
Lemma plays_gete : forall C l (k : env -> M C) s (Q : C -> list item -> Prop), plays l (k (s_e s)) s Q -> plays l (bind gete k) s Q.
Proof. intros C l k s Q H. exact H. Qed.
Lemma plays_updc : forall C f l (k : unit -> M C) s (Q : C -> list item -> Prop), plays l (k tt) (c_state s f) Q -> plays l (bind (updc f) k) s Q.
Proof. intros C f l k s Q H. exact H. Qed.
Lemma plays_upde : forall C f l (k : unit -> M C) s (Q : C -> list item -> Prop), plays l (k tt) (mkSt (s_c s) (f (s_e s)) (s_t s)) Q -> plays l (bind (upde f) k) s Q.
Proof. intros C f l k s Q H. exact H. Qed.
Lemma plays_lift : forall A C (a : A) l (k : A -> M C) s (Q : C -> list item -> Prop), plays l (k a) s Q -> plays l (bind (lift (Done a)) k) s Q.
Proof. intros A C a l k s Q H. exact H. Qed.
Lemma plays_ret_bind : forall A C (a : A) l (k : A -> M C) s (Q : C -> list item -> Prop), plays l (k a) s Q -> plays l (bind (ret a) k) s Q.
Proof. intros A C a l k s Q H. exact H. Qed.
Lemma plays_extend : forall A l l1 (mm : M A) s (Q : A -> list item -> Prop), plays (l ++ l1) mm s Q -> plays l mm s Q.
Proof. intros A l l1 mm s Q (l2 & K & H). exists (l1 ++ l2). rewrite app_assoc. split; assumption. Qed.
Lemma plays_tail : forall A l (mm : M A) s (Q : A -> list item -> Prop), plays l (bind mm ret) s Q -> plays l mm s Q.
Proof. intros A l mm s Q H. unfold plays, bind in H. unfold plays. destruct (mm s) as [[] s1]; exact H. Qed.

(** Events. *)
Definition opening_event (ev : event) : bool := match ev with EvBioNew _ _ => true | _ => false end.
Lemma channel_snoc : forall l ev, opening_event ev = false -> has_channel c0 l = false -> has_channel c0 (l ++ [Did ev]) = false.
Proof.
  intros l ev N H. unfold has_channel in *. rewrite happened_app. unfold open_after in *. rewrite fold_left_app. cbn [happened flat_map app fold_left].
  rewrite H. destruct ev; try reflexivity. discriminate N.
Qed.
Lemma channel_noted : forall l w d, has_channel c0 (l ++ [Noted w d]) = has_channel c0 l.
Proof. intros. unfold has_channel. rewrite happened_app. cbn. rewrite app_nil_r. reflexivity. Qed.
Lemma track_event : forall l s ev, opening_event ev = false -> Track l s -> Track (l ++ [Did ev]) (ev_state s ev).
Proof.
  intros l s ev N []. constructor; try assumption; unfold ev_state; cbn [s_c s_e s_t].
  - rewrite k_trace0, happened_app, app_assoc. reflexivity.
  - rewrite entries_app. cbn. rewrite app_nil_r. exact k_log0.
  - intros H. apply channel_snoc; auto.
Qed.
Lemma plays_emit : forall C l ev (k : unit -> M C) s (Q : C -> list item -> Prop), opening_event ev = false -> Track l s ->
  (Track (l ++ [Did ev]) (ev_state s ev) -> plays (l ++ [Did ev]) (k tt) (ev_state s ev) Q) -> plays l (bind (emit ev) k) s Q.
Proof.
  intros C l ev k s Q N K F. specialize (F (track_event _ _ _ N K)). apply plays_extend in F. exact F.
Qed.
Lemma track_events : forall evs l s, (forall ev, In ev evs -> opening_event ev = false) -> Track l s -> Track (l ++ map Did evs) (mkSt (s_c s) (s_e s) (s_t s ++ evs)).
Proof.
  induction evs as [|ev evs IH]; intros l s N K.
  - cbn. rewrite !app_nil_r. destruct s; exact K.
  - assert (X := IH _ _ (fun x I => N x (or_intror I)) (track_event l s ev (N ev (or_introl eq_refl)) K)).
    unfold ev_state in X. cbn [s_c s_e s_t] in X. rewrite <- !app_assoc in X. exact X.
Qed.

Lemma plays_emits : forall C evs l (k : unit -> M C) s (Q : C -> list item -> Prop), (forall ev, In ev evs -> opening_event ev = false) -> Track l s ->
  (Track (l ++ map Did evs) (mkSt (s_c s) (s_e s) (s_t s ++ evs)) -> plays (l ++ map Did evs) (k tt) (mkSt (s_c s) (s_e s) (s_t s ++ evs)) Q) ->
  plays l (bind (emits evs) k) s Q.
Proof. intros C evs l k s Q N K F. specialize (F (track_events _ _ _ N K)). apply plays_extend in F. exact F. Qed.

(** Entries. *)
Lemma track_note : forall l s w d d', shown w d = shown w d' -> Track l s -> cut l ->
  addLog d w s = (Throw, s) \/ exists lg n, addLog d w s = (Done tt, log_state s lg n) /\ Track (l ++ [Noted w d']) (log_state s lg n).
Proof.
  intros l s w d d' E K _. destruct K. destruct (addLog_good d w s k_good0) as [X|(lg & lg' & n & L & X & Y & C & S & M)]; [auto|]. right.
  exists lg', n. split; [exact Y|]. constructor; try assumption; unfold log_state; cbn [s_c s_e s_t].
  - rewrite k_trace0, happened_app. cbn. rewrite app_nil_r. reflexivity.
  - rewrite entries_app. cbn [entries flat_map app]. rewrite <- E. rewrite log_text_snoc, app_assoc, <- k_log0.
    unfold log_of, getCommunicationLog. cbn. rewrite L. exact X.
  - exists lg'. split; [reflexivity|]. rewrite C. repeat split; assumption.
  - intros H. rewrite channel_noted. apply k_bio0. exact H.
Qed.
Lemma plays_note : forall C l w d d' (k : unit -> M C) s (Q : C -> list item -> Prop), shown w d = shown w d' -> Track l s -> cut l ->
  (forall lg n, Track (l ++ [Noted w d']) (log_state s lg n) -> plays (l ++ [Noted w d']) (k tt) (log_state s lg n) Q) ->
  plays l (bind (addLog d w) k) s Q.
Proof.
  intros C l w d d' k s Q E K Ct F. destruct (track_note l s w d d' E K Ct) as [X|(lg & n & X & K')].
  - unfold plays, bind. rewrite X. exists []. rewrite app_nil_r. split; [exact K|exact Ct].
  - specialize (F lg n K'). apply plays_extend in F. unfold plays, bind in *. rewrite X. exact F.
Qed.

Lemma T_piece : forall l p, T l -> piece l p -> T (l ++ p).
Proof. intros. apply t_piece; assumption. Qed.
Lemma T_cut : forall l, T l -> cut l.
Proof. intros l H. left. exact H. Qed.
Lemma cut_piece : forall l p q, T l -> piece l (p ++ q) -> cut (l ++ p).
Proof. intros l p q H1 H2. right. exists l, p, q. auto. Qed.
Lemma T_events : forall evs l, T l -> (forall ev, In ev evs -> quiet ev) -> T (l ++ map Did evs).
Proof.
  induction evs as [|ev evs IH]; intros l H Q; [cbn; rewrite app_nil_r; exact H|]. cbn [map].
  change (Did ev :: map Did evs) with ([Did ev] ++ map Did evs). rewrite app_assoc. apply IH; [|intros; apply Q; right; assumption].
  apply T_piece; [exact H|]. apply p_quiet, Q. left. reflexivity.
Qed.


(** ** Switching the mode of the socket *)

Lemma switching_app : forall a b, switching e0 a -> switching e0 b -> switching e0 (a ++ b).
Proof. intros a b H1 H2 i I. apply in_app_or in I as [I|I]; auto. Qed.
Lemma switching_one : forall i, (exists fd mode ok, i = Did (EvFcntl fd mode ok)) \/ diagnosis e0 i -> switching e0 [i].
Proof. intros i H j [<-|[]]. exact H. Qed.
Lemma T_switching : forall sw l, T l -> switching e0 sw -> T (l ++ sw).
Proof.
  induction sw as [|i sw IH]; intros l H S; [rewrite app_nil_r; exact H|].
  change (i :: sw) with ([i] ++ sw). rewrite app_assoc. apply IH; [|intros j J; apply S; right; exact J].
  apply T_piece; [exact H|]. destruct (S i (or_introl eq_refl)) as [(fd & mode & ok & ->)|D]; [apply p_quiet; reflexivity|apply p_diagnosis, D].
Qed.

Definition tolerant (l : list item) : Prop := forall sw, switching e0 sw -> cut (l ++ sw).
Definition switches {A} (mm : M A) : Prop := forall l s, Track l s -> tolerant l ->
  plays l mm s (fun _ l' => exists sw, l' = l ++ sw /\ switching e0 sw).
Lemma tolerant_app : forall l sw, tolerant l -> switching e0 sw -> tolerant (l ++ sw).
Proof. intros l sw H S sw' S'. rewrite <- app_assoc. apply H. apply switching_app; assumption. Qed.
Lemma tolerant_cut : forall l, tolerant l -> cut l.
Proof. intros l H. rewrite <- (app_nil_r l). apply H. intros i []. Qed.
Lemma switches_ret : forall A (a : A), switches (ret a).
Proof. intros A a l s K H. apply plays_ret; [exact K|]. exists []. rewrite app_nil_r. split; [reflexivity|intros i []]. Qed.
Lemma switches_bind : forall A C (mm : M A) (k : A -> M C), switches mm -> (forall a, switches (k a)) -> switches (bind mm k).
Proof.
  intros A C mm k H1 H2 l s K Tl. eapply plays_bind; [apply H1; assumption|]. cbv beta. intros a l1 s1 _ K1 (sw & E & S). rewrite E in *.
  eapply plays_mono; [apply H2; [exact K1|apply tolerant_app; assumption]|]. cbv beta. intros x l2 (sw2 & -> & S2). exists (sw ++ sw2).
  rewrite app_assoc. split; [reflexivity|apply switching_app; assumption].
Qed.
Lemma switches_log_errno : forall er, switches (log_errno er).
Proof.
  intros er l s K Tl. unfold log_errno, setLastSocketErrNo. apply plays_updc. apply plays_gete. apply plays_tail.
  assert (K1 : Track l (c_state s (set_errno er))) by (destruct K; constructor; assumption).
  change (s_e (c_state s (set_errno er))) with (s_e s). rewrite (k_err _ _ K).
  apply plays_note with (d' := e_strerror e0 er); [reflexivity|exact K1|apply tolerant_cut, Tl|]. intros lg n K2. apply plays_ret; [exact K2|].
  exists [client_says (e_strerror e0 er)]. split; [reflexivity|]. apply switching_one. right. exists er. reflexivity.
Qed.
Lemma switches_fcntl : forall mode, switches (sys_fcntl mode).
Proof.
  intros mode l s K Tl. unfold sys_fcntl. apply plays_getc, plays_gete.
  assert (X : forall ok, switching e0 [Did (EvFcntl (c_sock (s_c s)) mode ok)]) by (intros ok; apply switching_one; left; eauto).
  destruct (e_fcntl (s_e s)) as [|r rs].
  - apply plays_emit; [reflexivity|exact K|]. intros K1. apply plays_ret; [exact K1|]. eexists. split; [reflexivity|apply X].
  - apply plays_upde. assert (K1 : Track l (mkSt (s_c s) (set_fcntl rs (s_e s)) (s_t s))) by (destruct K; constructor; assumption).
    apply plays_emit; [reflexivity|exact K1|]. intros K2. apply plays_ret; [exact K2|]. eexists. split; [reflexivity|apply X].
Qed.
Lemma switches_nonblocking : switches setSocketToNonBlocking.
Proof.
  unfold setSocketToNonBlocking. apply switches_bind; [apply switches_fcntl|]. intros g. apply switches_bind; [destruct g; [apply switches_log_errno|apply switches_ret]|].
  intros _. apply switches_bind; [apply switches_fcntl|]. intros [er|]; [|apply switches_ret]. apply switches_bind; [apply switches_log_errno|]. intros _. apply switches_ret.
Qed.
Lemma switches_blocking : switches setSocketToBlocking.
Proof.
  unfold setSocketToBlocking. apply switches_bind; [apply switches_fcntl|]. intros [er|].
  - apply switches_bind; [apply switches_log_errno|]. intros _. apply switches_ret.
  - apply switches_bind; [apply switches_fcntl|]. intros [er|]; [|apply switches_ret]. apply switches_bind; [apply switches_log_errno|]. intros _. apply switches_ret.
Qed.

(** ** Whole pieces *)

Definition told {A} (mm : M A) : Prop := forall l s, Track l s -> T l -> tells l mm s.
Lemma tolerant_T : forall l, T l -> tolerant l.
Proof. intros l H sw S. apply T_cut, T_switching; assumption. Qed.
Lemma told_switches : forall A (mm : M A), switches mm -> told mm.
Proof.
  intros A mm H l s K Tl. eapply plays_mono; [apply H; [exact K|apply tolerant_T, Tl]|]. cbv beta. intros a l' (sw & -> & S). apply T_switching; assumption.
Qed.
Lemma told_ret : forall A (a : A), told (ret a).
Proof. intros A a l s K H. apply plays_ret; assumption. Qed.
Lemma told_stop : forall A (o : outcome A), (forall a, o <> Done a) -> told (lift o).
Proof. intros A o N l s K H. apply plays_stop; [exact N|exact K|apply T_cut, H]. Qed.
Lemma told_ub : forall A u, told (@fail_ub A u).
Proof. intros. apply (told_stop A (Undef u)). discriminate. Qed.
Lemma told_blocked : forall A, told (@blocked A).
Proof. intros. apply (told_stop A Blocked). discriminate. Qed.
Lemma told_killed : forall A, told (@killed A).
Proof. intros. apply (told_stop A Killed). discriminate. Qed.
Lemma told_diverge : forall A, told (@diverge A).
Proof. intros. apply (told_stop A Diverge). discriminate. Qed.
Lemma tells_bind : forall A C (mm : M A) (k : A -> M C) l s, tells l mm s -> (forall a, told (k a)) -> tells l (bind mm k) s.
Proof. intros A C mm k l s H1 H2. eapply plays_bind; [exact H1|]. cbv beta. intros a l1 s1 _ K1 T1. apply H2; assumption. Qed.
Lemma told_bind : forall A C (mm : M A) (k : A -> M C), told mm -> (forall a, told (k a)) -> told (bind mm k).
Proof. intros A C mm k H1 H2 l s K H. apply tells_bind; auto. Qed.

(** The settings do not change. *)
Record like (c : client) : Prop := mkLike {
  l_kind : c_kind c = c_kind c0; l_server : c_server c = c_server c0; l_port : c_port c = c_port c0;
  l_timeout : c_timeout c = c_timeout c0; l_cred : c_cred c = c_cred c0; l_self : c_selfsigned c = c_selfsigned c0 }.
Lemma track_like : forall l s, Track l s -> like (s_c s).
Proof. intros l s []. constructor; assumption. Qed.
Lemma told_getc : forall C (k : client -> M C), (forall c, like c -> told (k c)) -> told (bind getc k).
Proof. intros C k H l s K Tl. apply plays_getc. apply H; [apply (track_like _ _ K)|exact K|exact Tl]. Qed.
Definition elike (e : env) : Prop := e_strerror e = e_strerror e0 /\ e_x509str e = e_x509str e0 /\ e_fs e = e_fs e0.
Lemma told_gete : forall C (k : env -> M C), (forall e, elike e -> told (k e)) -> told (bind gete k).
Proof. intros C k H l s K Tl. apply plays_gete. apply H; [|exact K|exact Tl]. destruct K; repeat split; assumption. Qed.
Lemma told_updc : forall f, (forall l s, Track l s -> Track l (c_state s f)) -> told (updc f).
Proof. intros f H l s K Tl. apply plays_tail, plays_updc, plays_ret; [apply H, K|exact Tl]. Qed.
Lemma told_upde : forall f, (forall l s, Track l s -> Track l (mkSt (s_c s) (f (s_e s)) (s_t s))) -> told (upde f).
Proof. intros f H l s K Tl. apply plays_tail, plays_upde, plays_ret; [apply H, K|exact Tl]. Qed.
Lemma told_emit : forall ev, opening_event ev = false -> quiet ev -> told (emit ev).
Proof. intros ev N Q l s K Tl. apply plays_tail. apply plays_emit; [exact N|exact K|]. intros K1. apply plays_ret; [exact K1|]. apply T_piece; [exact Tl|apply p_quiet, Q]. Qed.
Lemma told_note : forall d w, (forall l, piece l [Noted w d]) -> told (addLog d w).
Proof.
  intros d w H l s K Tl. apply plays_tail. apply plays_note with (d' := d); [reflexivity|exact K|apply T_cut, Tl|]. intros lg n K1. apply plays_ret; [exact K1|].
  apply T_piece; [exact Tl|apply H].
Qed.
Lemma told_info : forall d, info (client_says d) -> told (logc d).
Proof. intros d H. apply told_note. intros l. apply p_info, H. Qed.

Ltac track := intros; match goal with K : Track _ _ |- _ => destruct K; constructor; assumption end.

(** ** Opening the connection *)

Lemma told_log_errno : forall er, told (log_errno er).
Proof. intros. apply told_switches, switches_log_errno. Qed.
Lemma told_errno : forall er, told (setLastSocketErrNo er).
Proof. intros. apply told_updc. track. Qed.
Lemma told_resolve : forall name, told (sys_gethostbyname name).
Proof.
  intros name. unfold sys_gethostbyname. apply told_gete. intros e _. destruct (e_host e) as [|r rs].
  - apply told_bind; [apply told_emit; reflexivity|]. intros _. apply told_ret.
  - apply told_bind; [apply told_upde; track|]. intros _. apply told_bind; [apply told_emit; reflexivity|]. intros _. apply told_ret.
Qed.
Lemma told_wait_connect : told wait_connect.
Proof.
  unfold wait_connect. apply told_getc. intros c _. destruct (FD_SETSIZE <=? c_sock c); [apply told_ub|].
  apply told_bind; [apply told_emit; reflexivity|]. intros _. apply told_gete. intros e _. apply told_bind.
  { destruct (e_select e); [apply told_ret|]. apply told_bind; [apply told_upde; track|]. intros _. apply told_ret. }
  intros [| |er].
  - apply told_gete. intros e' _. apply told_bind.
    { destruct (e_sopt e'); [apply told_ret|]. apply told_bind; [apply told_upde; track|]. intros _. apply told_ret. }
    intros [er|v]; [|destruct (v =? 0); [apply told_ret|]]; (apply told_bind; [apply told_log_errno|intros _; apply told_ret]).
  - apply told_ret.
  - destruct (er =? EINTR); [apply told_ret|]. apply told_bind; [apply told_log_errno|intros _; apply told_ret].
Qed.
Lemma told_connect : forall name (k : option Z -> M Z), c_server c0 = Some name -> (forall r, told (k r)) ->
  told (logc (B "Trying to connect to " ++ name ++ B " on port " ++ dec_of_N (c_port c0));; r <- sys_connect;; k r).
Proof.
  intros name k N H l s K Tl. eapply plays_note; [reflexivity|exact K|apply T_cut, Tl|]. intros lg n K1.
  assert (P : forall fd port ok, T ((l ++ [client_says (B "Trying to connect to " ++ name ++ B " on port " ++ dec_of_N (c_port c0))]) ++ [Did (EvConnect fd port ok)])).
  { intros fd port ok. rewrite <- app_assoc. apply T_piece; [exact Tl|]. apply (p_connect c0 e0 m0 l name fd port ok N). }
  apply tells_bind; [|exact H]. unfold sys_connect. apply plays_getc, plays_gete.
  match goal with |- context [e_conn ?e] => destruct (e_conn e) as [|r rs] end.
  - apply plays_emit; [reflexivity|exact K1|]. intros K2. apply plays_ret; [exact K2|apply P].
  - apply plays_upde. match type of K1 with Track _ ?s1 => assert (K2 : Track (l ++ [client_says (B "Trying to connect to " ++ name ++ B " on port " ++ dec_of_N (c_port c0))]) (mkSt (s_c s1) (set_econn rs (s_e s1)) (s_t s1))) by (destruct K1; constructor; assumption) end.
    apply plays_emit; [reflexivity|exact K2|]. intros K3. apply plays_ret; [exact K3|apply P].
Qed.
Lemma told_posix : told initializeSessionPOSIX.
Proof.
  unfold initializeSessionPOSIX. apply told_gete. intros e _. destruct (e_sock e) as [|[fd|er] rs]; [apply told_blocked| |].
  - apply told_bind; [apply told_upde; track|]. intros _. apply told_bind; [apply told_emit; reflexivity|]. intros _. apply told_bind; [apply told_updc; track|]. intros _.
    apply told_getc. intros c L. rewrite (l_server _ L), (l_port _ L). destruct (c_server c0) as [name|] eqn:N; [|apply told_ub].
    apply told_bind; [apply told_resolve|]. intros [len|]; [|apply told_ret]. destruct (len <? 0); [apply told_ret|]. destruct (4 <? len); [apply told_ub|].
    apply told_bind; [apply told_switches, switches_nonblocking|]. intros nb. destruct (negb (nb =? 0)); [apply told_ret|].
    apply told_connect; [exact N|]. intros [er|]; [|apply told_switches, switches_blocking]. destruct (er =? EINPROGRESS).
    + apply told_bind; [apply told_wait_connect|]. intros w. destruct (w =? 0); [apply told_switches, switches_blocking|apply told_ret].
    + apply told_bind; [apply told_log_errno|]. intros _. apply told_ret.
  - apply told_bind; [apply told_upde; track|]. intros _. apply told_bind; [apply told_emit; reflexivity|]. intros _. apply told_bind; [apply told_updc; track|]. intros _.
    apply told_bind; [apply told_log_errno|]. intros _. apply told_ret.
Qed.
Lemma told_initialize : forall s, base = [] -> Track [] s -> tells [] initializeSession s.
Proof.
  intros s Eb K. unfold initializeSession. apply plays_updc. apply told_posix; [|apply t_nil].
  assert (G := good_fresh s). destruct K; constructor; try assumption. unfold log_of, getCommunicationLog. cbn. rewrite Eb. reflexivity.
Qed.


(** ** Receiving *)

Lemma idle_quiet : forall evs, idle evs -> forall ev, In ev evs -> quiet ev.
Proof. intros evs H ev I. destruct (H ev I) as [D [(fd & r & ->)|[(b & r & ->)|(n & ->)]]]; exact D. Qed.
Lemma idle_closed : forall evs, idle evs -> forall ev, In ev evs -> opening_event ev = false.
Proof. intros evs H ev I. destruct (H ev I) as [_ [(fd & r & ->)|[(b & r & ->)|(n & ->)]]]; reflexivity. Qed.
Lemma idle_nil : idle [].
Proof. intros ev []. Qed.
Lemma idle_wait : forall mk r evs, ((exists fd, mk = EvRecv fd) \/ (exists i, mk = EvRead i)) -> rbytes r = [] -> idle evs -> idle (mk r :: EvSleep 1 :: evs).
Proof.
  intros mk r evs Hk R H ev [<-|[<-|I]]; [| |apply H, I].
  - split; [destruct Hk as [[fd ->]|[i ->]]; destruct r; exact R || reflexivity|]. destruct Hk as [[fd ->]|[i ->]]; [left|right; left]; eexists; eexists; reflexivity.
  - split; [reflexivity|]. right. right. eexists. reflexivity.
Qed.
Lemma wait_shape : forall mk, ((exists fd, mk = EvRecv fd) \/ (exists i, mk = EvRead i)) -> forall tmo rs w o evs rest, wait_loop mk tmo w rs = (o, evs, rest) ->
  ((o = Blocked \/ o = Done None) /\ idle evs) \/
  exists waiting r d, evs = waiting ++ [mk r] /\ receives waiting (mk r) d /\ (o = Done (Some d) \/ (o = Done None /\ (tmo <= w + slept waiting)%N)).
Proof.
  intros mk Hk tmo. induction rs as [|r rs IH]; intros w o evs rest H; cbn [wait_loop] in H.
  - injection H as <- <- <-. left. split; [auto|apply idle_nil].
  - destruct (rbytes r) as [|x d] eqn:R.
    + destruct (w <? tmo)%N eqn:Lt.
      * destruct (wait_loop mk tmo (w + 1) rs) as [[o1 evs1] rest1] eqn:E. injection H as <- <- <-.
        destruct (IH _ _ _ _ E) as [[Ho Hi]|(wt & r' & d & -> & (Hi & Hr & Hd & Hn) & Ho)].
        -- left. split; [exact Ho|]. apply idle_wait; assumption.
        -- right. exists (mk r :: EvSleep 1 :: wt), r', d. split; [reflexivity|]. split; [split; [apply idle_wait; assumption|split; [exact Hr|split; assumption]]|].
           destruct Ho as [Ho|[Ho Hs]]; [left; exact Ho|right; split; [exact Ho|]].
           assert (slept (mk r :: EvSleep 1 :: wt) = (1 + slept wt)%N) by (destruct Hk as [[fd ->]|[i ->]]; reflexivity). lia.
      * injection H as <- <- <-. left. split; [auto|]. intros ev [<-|[]]. split; [destruct Hk as [[fd ->]|[i ->]]; destruct r; exact R || reflexivity|].
        destruct Hk as [[fd ->]|[i ->]]; [left|right; left]; eexists; eexists; reflexivity.
    + injection H as <- <- <-. right. exists [], r, (x :: d). split; [reflexivity|]. split.
      * split; [apply idle_nil|]. split; [destruct Hk as [[fd ->]|[i ->]]; [left|right]; eexists; eexists; reflexivity|].
        split; [|discriminate]. destruct r as [dd|er]; [|discriminate R]. destruct Hk as [[fd ->]|[i ->]]; exact R.
      * destruct (w <? tmo)%N eqn:Lt; [left; reflexivity|right; split; [reflexivity|]]. cbn. lia.
Qed.

Definition clear_wait (evs : list event) : Prop := forall ev, In ev evs -> in_clear_read ev \/ exists n, ev = EvSleep n.
Lemma clear_cons : forall ev evs, (in_clear_read ev \/ exists n, ev = EvSleep n) -> clear_wait evs -> clear_wait (ev :: evs).
Proof. intros ev evs H1 H2 x [<-|I]; auto. Qed.
Lemma clear_closed : forall evs, clear_wait evs -> forall ev, In ev evs -> opening_event ev = false.
Proof. intros evs H ev I. destruct (H ev I) as [(fd & r & ->)|(n & ->)]; reflexivity. Qed.
Lemma clear_idle : forall evs, clear_wait evs -> flat_map delivered evs = [] -> idle evs.
Proof.
  induction evs as [|ev evs IH]; intros H F x I; [destruct I|]. cbn in F. apply app_eq_nil in F as [F1 F2]. destruct I as [<-|I].
  - split; [exact F1|]. destruct (H ev (or_introl eq_refl)); auto.
  - apply IH; [intros y J; apply H; right; exact J|exact F2|exact I].
Qed.
Lemma raw_shape : forall fd tmo rs w got acc o evs rest, raw_loop fd tmo w got acc rs = (o, evs, rest) ->
  clear_wait evs /\ forall w' g' full, o = Done (w', g', full) ->
    full = acc ++ concat (map (fun ev => cstr (delivered ev)) evs) /\ (g' = false -> (tmo <= w')%N /\ flat_map delivered evs = []) /\
    (g' = true -> got = true \/ flat_map delivered evs <> []).
Proof.
  intros fd tmo. induction rs as [|r rs IH]; intros w got acc o evs rest H; cbn [raw_loop] in H.
  - injection H as <- <- <-. split; [intros ev []|]. discriminate.
  - assert (C1 : in_clear_read (EvRecv fd r) \/ exists n, EvRecv fd r = EvSleep n) by (left; eexists; eexists; reflexivity).
    assert (C2 : in_clear_read (EvSleep 1) \/ exists n, EvSleep 1 = EvSleep n) by (right; eexists; reflexivity).
    assert (C0 : clear_wait []) by (intros ev []).
    assert (De : delivered (EvRecv fd r) = rbytes r) by (destruct r; reflexivity).
    destruct (rbytes r) as [|x d] eqn:R.
    + destruct (is_err r && got)%bool eqn:Eg; [|destruct (w + 1 <? tmo)%N eqn:Lt].
      * injection H as <- <- <-. split; [apply clear_cons; assumption|]. intros w' g' full E. injection E as <- <- <-. cbn [map concat flat_map]. rewrite De. cbn. rewrite app_nil_r.
        split; [reflexivity|]. split; [intros ->; rewrite andb_false_r in Eg; discriminate Eg|]. auto.
      * destruct (raw_loop fd tmo (w + 1) got acc rs) as [[o1 evs1] rest1] eqn:E1. injection H as <- <- <-. destruct (IH _ _ _ _ _ _ E1) as [H1 H2].
        split; [repeat apply clear_cons; assumption|]. intros w' g' full E. destruct (H2 _ _ _ E) as (H3 & H4 & H5). cbn [map concat flat_map]. rewrite De. cbn. auto.
      * injection H as <- <- <-. split; [repeat apply clear_cons; assumption|]. intros w' g' full E. injection E as <- <- <-. cbn [map concat flat_map]. rewrite De. cbn.
        rewrite app_nil_r. split; [reflexivity|]. split; [intros _; split; [lia|reflexivity]|auto].
    + destruct (SERVERRESPONSE_BUFFER_LENGTH <=? length (x :: d))%nat.
      { injection H as <- <- <-. split; [apply clear_cons; assumption|]. discriminate. }
      destruct (w <? tmo)%N eqn:Lt.
      * destruct (raw_loop fd tmo w true (acc ++ cstr (x :: d)) rs) as [[o1 evs1] rest1] eqn:E1. injection H as <- <- <-. destruct (IH _ _ _ _ _ _ E1) as [H1 H2].
        split; [apply clear_cons; assumption|]. intros w' g' full E. destruct (H2 _ _ _ E) as (H3 & H4 & H5). cbn [map concat flat_map]. rewrite De.
        split; [rewrite H3, <- app_assoc; reflexivity|]. split; [|right; discriminate].
        intros G. exfalso. clear -E1 E G. subst g'. revert E1 E. generalize (acc ++ cstr (x :: d)). revert w w' full o1 evs1 rest1. induction rs as [|r rs IH]; intros w w' full o1 evs1 rest1 a H E; cbn [raw_loop] in H.
        { injection H as <- <- <-. discriminate E. }
        destruct (rbytes r).
        { rewrite andb_true_r in H. destruct (is_err r); [injection H as <- <- <-; discriminate E|]. destruct (w + 1 <? tmo)%N; [|injection H as <- <- <-; discriminate E].
          destruct (raw_loop fd tmo (w + 1) true a rs) as [[o2 evs2] rest2] eqn:E2. injection H as <- <- <-. eapply IH; eassumption. }
        { destruct (SERVERRESPONSE_BUFFER_LENGTH <=? _)%nat; [injection H as <- <- <-; discriminate E|]. destruct (w <? tmo)%N; [|injection H as <- <- <-; discriminate E].
          destruct (raw_loop fd tmo w true _ rs) as [[o2 evs2] rest2] eqn:E2. injection H as <- <- <-. eapply IH; eassumption. }
      * injection H as <- <- <-. split; [apply clear_cons; assumption|]. intros w' g' full E. injection E as <- <- <-. cbn [map concat flat_map]. rewrite De, !app_nil_r.
        split; [reflexivity|]. split; [discriminate|]. right. discriminate.
Qed.

Lemma drop_removelast : forall d, drop_last_byte d = cstr (removelast d).
Proof.
  intros d. unfold drop_last_byte. f_equal. induction d as [|x d IH]; [reflexivity|]. destruct d as [|y d]; [reflexivity|].
  change (removelast (x :: y :: d)) with (x :: removelast (y :: d)). rewrite <- IH. cbn [length]. replace (S (S (length d)) - 1)%nat with (S (S (length d) - 1)) by lia. reflexivity.
Qed.
Lemma shown_drop : forall d, shown (B "s") (drop_last_byte d) = shown (B "s") (removelast d).
Proof. intros d. rewrite drop_removelast. unfold shown. cbn [str_eqb]. apply cstr_cstr. Qed.

Lemma told_raw_reply : told getRawCommandReply.
Proof.
  unfold getRawCommandReply. apply told_bind; [apply told_switches, switches_nonblocking|]. intros _ l s K Tl. apply plays_getc, plays_gete.
  destruct (raw_loop (c_sock (s_c s)) (c_timeout (s_c s)) 0 false [] (e_recv (s_e s))) as [[o evs] rest] eqn:E. destruct (raw_shape _ _ _ _ _ _ _ _ _ E) as [Hc Hd].
  apply plays_upde. assert (K1 : Track l (mkSt (s_c s) (set_recv rest (s_e s)) (s_t s))) by (destruct K; constructor; assumption).
  assert (Ct : tolerant (l ++ map Did evs)).
  { destruct (flat_map delivered evs) as [|x d] eqn:F.
    - apply tolerant_T, T_events; [exact Tl|]. apply idle_quiet, clear_idle; assumption.
    - intros sw S. rewrite <- app_assoc. eapply cut_piece; [exact Tl|]. rewrite <- app_assoc. apply p_reply; [exact Hc|rewrite F; discriminate|exact S]. }
  apply plays_emits; [apply clear_closed, Hc|exact K1|]. cbn [s_c s_e s_t]. intros K2.
  destruct o as [[[w' g'] full]| | | | |]; try (unfold bind, lift; exists []; rewrite app_nil_r; split; [exact K2|apply tolerant_cut, Ct]).
  apply plays_lift. destruct (Hd _ _ _ eq_refl) as (Hf & H0 & H1). eapply plays_bind; [apply switches_blocking; [exact K2|exact Ct]|].
  cbv beta. intros z l1 s1 _ K3 (sw & El & S). rewrite El in *. clear El l1. destruct g'.
  - rewrite orb_true_r. unfold setLastServerResponse. apply plays_updc.
    match goal with |- plays _ _ ?s2 _ => assert (K4 : Track ((l ++ map Did evs) ++ sw) s2) by (destruct K3; constructor; assumption) end.
    apply plays_note with (d' := concat (map (fun ev => cstr (delivered ev)) evs)); [rewrite Hf; reflexivity|exact K4|apply Ct, S|]. intros lg n K5.
    apply plays_ret; [exact K5|]. rewrite <- !app_assoc. apply T_piece; [exact Tl|]. apply p_reply; [exact Hc| |exact S].
    destruct (H1 eq_refl) as [X|X]; [discriminate X|exact X].
  - destruct (H0 eq_refl) as [Hw Hn]. replace (w' <? c_timeout (s_c s))%N with false by lia. apply plays_ret; [exact K3|].
    apply T_switching; [|exact S]. apply T_events; [exact Tl|]. apply idle_quiet, clear_idle; assumption.
Qed.

(** Waiting for one read: what was received, and the piece it may begin. *)
Definition waited (l : list item) (tls : bool) (r : option str) (l' : list item) : Prop :=
  match r with
  | None => T l'
  | Some d => exists waiting ev, l' = l ++ map Did (waiting ++ [ev]) /\ receives waiting ev d /\ (tls = true -> tls_read ev)
  end.
Lemma plays_wait : forall mk l s rs f (K : Track l s) (Tl : T l) tls,
  ((exists fd, mk = EvRecv fd /\ tls = false) \/ (exists i, mk = EvRead i)) ->
  (forall e rest, f rest e = set_recv rest e \/ f rest e = set_bread rest e) ->
  plays l (let '(o, evs, rest) := wait_loop mk (c_timeout (s_c s)) 0 rs in upde (f rest);; emits evs;; lift o) s (waited l tls).
Proof.
  intros mk l s rs f K Tl tls Hk Hf. destruct (wait_loop mk (c_timeout (s_c s)) 0 rs) as [[o evs] rest] eqn:E.
  assert (Hk' : (exists fd, mk = EvRecv fd) \/ (exists i, mk = EvRead i)) by (destruct Hk as [(fd & X & _)|X]; [left; eauto|right; exact X]).
  apply plays_upde. assert (K1 : Track l (mkSt (s_c s) (f rest (s_e s)) (s_t s))) by (destruct (Hf (s_e s) rest) as [Z|Z]; rewrite Z; destruct K; constructor; assumption).
  destruct (wait_shape mk Hk' _ _ _ _ _ _ E) as [[Ho Hi]|(wt & r & d & -> & Hr & Ho)].
  - apply plays_emits; [apply idle_closed, Hi|exact K1|]. intros K2. assert (X : T (l ++ map Did evs)) by (apply T_events; [exact Tl|apply idle_quiet, Hi]).
    destruct Ho as [-> | ->]; [apply plays_stop; [discriminate|exact K2|apply T_cut, X]|apply (plays_ret _ _ None); [exact K2|exact X]].
  - assert (Hn : forall ev, In ev (wt ++ [mk r]) -> opening_event ev = false).
    { intros ev I. apply in_app_or in I as [I|[<-|[]]]; [eapply idle_closed; [apply Hr|exact I]|]. destruct Hk' as [[fd ->]|[i ->]]; reflexivity. }
    apply plays_emits; [exact Hn|exact K1|]. intros K2. destruct Ho as [-> |[-> Hs]].
    + apply (plays_ret _ _ (Some d)); [exact K2|]. exists wt, (mk r). split; [reflexivity|]. split; [exact Hr|]. intros ->. destruct Hk as [(fd & _ & X)|(i & ->)]; [discriminate X|]. eexists; eexists; reflexivity.
    + apply (plays_ret _ _ None); [exact K2|]. apply T_piece; [exact Tl|]. apply (p_late c0 e0 m0 l wt (mk r) d Hr). rewrite (k_timeout _ _ K) in Hs. lia.
Qed.
Lemma plays_wait_bio : forall l s, Track l s -> T l -> plays l wait_bio s (waited l true).
Proof.
  intros l s K Tl. unfold wait_bio. apply plays_getc. destruct (c_bio (s_c s)) as [b|].
  - apply plays_gete. apply plays_wait with (f := set_bread); [exact K|exact Tl|right; eexists; reflexivity|]. intros e rest. right. reflexivity.
  - unfold wait_null_bio. apply plays_getc. destruct (0 <? c_timeout (s_c s))%N.
    + apply plays_emit; [reflexivity|exact K|]. intros K1. apply plays_ret; [exact K1|]. apply T_piece; [exact Tl|]. apply p_quiet. reflexivity.
    + apply plays_ret_bind, plays_ret; [exact K|exact Tl].
Qed.


Lemma extract_220 : forall x, extractReturnCode (Some x) = 220 -> starts_with (B "220") x.
Proof. intros x H. apply (extract_code "2"%char "2"%char "0"%char 2 2 0); try exact H; try lia; split; try lia; reflexivity. Qed.
Lemma code_220 : forall d, (extractReturnCode (Some (drop_last_byte d)) =? 220) = prefixb (B "220") (cstr (removelast d)).
Proof.
  intros d. rewrite drop_removelast. set (x := cstr (removelast d)). assert (C : cstr x = x) by apply cstr_cstr.
  destruct (Z.eqb_spec (extractReturnCode (Some x)) 220) as [E|E].
  - destruct (extract_220 _ E) as [r ->]. reflexivity.
  - destruct (prefixb (B "220") x) eqn:F; [|reflexivity]. exfalso. apply E.
    apply prefixb_spec in F as [r F]. unfold extractReturnCode. rewrite C, F. reflexivity.
Qed.
Lemma plays_greeting : forall l s tls mm, c_conn c0 = false -> no_writes (happened l) -> T l -> plays l mm s (waited l tls) ->
  tells l (r <- mm;; greeting_result r) s.
Proof.
  intros l s tls mm Cn Nw Tl H. eapply plays_bind; [exact H|]. intros [d|] l1 s1 _ K1 Q1; [|apply plays_ret; [exact K1|exact Q1]].
  destruct Q1 as (wt & ev & El & Hr & _). rewrite El in *. assert (P := p_greeting c0 e0 m0 l wt ev d Cn Nw Hr). unfold greeting_result. cbv zeta.
  apply plays_note with (d' := removelast d); [apply shown_drop|exact K1|eapply cut_piece; [exact Tl|exact P]|]. intros lg n K2.
  change STATUS_CODE_SERVICE_READY with 220. rewrite code_220. rewrite <- app_assoc in *. destruct (prefixb (B "220") (cstr (removelast d))).
  - eapply plays_bind with (Q1 := fun _ l' => l' = l ++ map Did (wt ++ [ev]) ++ [server_says (removelast d)] ++ [client_says (B "Connected!")]).
    + apply plays_tail. apply plays_note with (d' := B "Connected!"); [reflexivity|exact K2|eapply cut_piece; [exact Tl|rewrite <- app_assoc; exact P]|].
      intros lg' n' K3. apply plays_ret; [exact K3|]. rewrite <- !app_assoc. reflexivity.
    + cbv beta. intros _ l2 s2 _ K3 E2. apply plays_ret; [exact K3|]. rewrite E2. apply T_piece; [exact Tl|exact P].
  - apply plays_ret_bind, plays_ret; [exact K2|]. apply T_piece; [exact Tl|exact P].
Qed.
Lemma tells_greetings : forall l s, Track l s -> c_conn c0 = false -> no_writes (happened l) -> T l -> tells l checkServerGreetings s.
Proof.
  intros l s K Cn Nw Tl.
  assert (X := plays_wait (EvRecv (c_sock (s_c s))) l s (e_recv (s_e s)) set_recv K Tl false (or_introl (ex_intro _ _ (conj eq_refl eq_refl))) (fun e r => or_introl eq_refl)).
  apply plays_greeting in X; [|exact Cn|exact Nw|exact Tl]. unfold checkServerGreetings. apply plays_getc, plays_gete.
  destruct (wait_loop (EvRecv (c_sock (s_c s))) (c_timeout (s_c s)) 0 (e_recv (s_e s))) as [[o evs] rest]. exact X.
Qed.
Lemma tells_greetings_tls : forall l s, Track l s -> c_conn c0 = false -> no_writes (happened l) -> T l -> tells l checkServerGreetingsTLS s.
Proof. intros l s K Cn Nw Tl. eapply plays_greeting; [exact Cn|exact Nw|exact Tl|]. apply plays_wait_bio; assumption. Qed.

Lemma told_reply_tls : told getServerReplyTLS.
Proof.
  intros l s K Tl. unfold getServerReplyTLS. eapply plays_bind; [apply plays_wait_bio; assumption|]. intros [d|] l1 s1 _ K1 Q1; [|apply plays_ret; [exact K1|exact Q1]].
  destruct Q1 as (wt & ev & El & Hr & Ht). rewrite El in *. assert (P := p_reply_tls c0 e0 m0 l wt ev d Hr (Ht eq_refl)). cbv zeta.
  unfold setLastServerResponse. apply plays_updc.
  match goal with |- plays ?x _ ?s2 _ => assert (K2 : Track x s2) by (destruct K1; constructor; assumption) end.
  apply plays_note with (d' := removelast d); [apply shown_drop|exact K2|eapply cut_piece; [exact Tl|exact P]|]. intros lg n K3.
  apply plays_ret; [exact K3|]. rewrite <- app_assoc. apply T_piece; [exact Tl|exact P].
Qed.
Lemma told_reply : told getServerReply.
Proof. unfold getServerReply. apply told_getc. intros c _. destruct (c_kind c); [apply told_raw_reply|apply told_reply_tls|apply told_reply_tls]. Qed.

(** ** Sending *)

(** [d] may be written next; nothing need be written without a channel. *)
Definition sendable (d : str) (l : list item) : Prop := forall ev, writes (cstr d) ev -> T (l ++ [Did ev]).
Definition droppable (l : list item) : Prop := c_kind c0 <> KPlain -> has_channel c0 l = false -> T l.

Lemma plays_send : forall l s d, Track l s -> plays l (sys_send d) s (fun _ l' => exists ev, writes d ev /\ l' = l ++ [Did ev]).
Proof.
  intros l s d K. unfold sys_send. apply plays_getc, plays_gete. destruct (e_send (s_e s)) as [|r rs].
  - apply plays_emit; [reflexivity|exact K|]. intros K1. apply plays_ret; [exact K1|]. eexists. split; [left; eexists; eexists; reflexivity|reflexivity].
  - apply plays_upde. match goal with |- plays ?x _ ?s2 _ => assert (K1 : Track x s2) by (destruct K; constructor; assumption) end.
    apply plays_emit; [reflexivity|exact K1|]. intros K2. apply plays_ret; [exact K2|]. eexists. split; [left; eexists; eexists; reflexivity|reflexivity].
Qed.
Lemma plays_puts : forall l s b d, Track l s -> plays l (sys_puts b d) s (fun _ l' => exists ev, writes d ev /\ l' = l ++ [Did ev]).
Proof.
  intros l s b d K. unfold sys_puts. apply plays_gete. destruct (e_bputs (s_e s)) as [|r rs].
  - apply plays_emit; [reflexivity|exact K|]. intros K1. apply plays_ret; [exact K1|]. eexists. split; [right; eexists; eexists; reflexivity|reflexivity].
  - apply plays_upde. match goal with |- plays ?x _ ?s2 _ => assert (K1 : Track x s2) by (destruct K; constructor; assumption) end.
    apply plays_emit; [reflexivity|exact K1|]. intros K2. apply plays_ret; [exact K2|]. eexists. split; [right; eexists; eexists; reflexivity|reflexivity].
Qed.
Lemma tells_send : forall l s d, Track l s -> sendable d l -> tells l (sys_send (cstr d)) s.
Proof. intros l s d K S. eapply plays_mono; [apply plays_send, K|]. cbv beta. intros _ l' (ev & W & ->). apply S, W. Qed.
Lemma tells_puts : forall l s b d, Track l s -> sendable d l -> tells l (sys_puts b (cstr d)) s.
Proof. intros l s b d K S. eapply plays_mono; [apply plays_puts, K|]. cbv beta. intros _ l' (ev & W & ->). apply S, W. Qed.

Section Cleanup.
Variable cl : M unit.
Hypothesis Tcl : told cl.
Lemma tells_raw2 : forall l s d err, Track l s -> sendable d l -> tells l (sendRaw2_with cl d err) s.
Proof.
  intros l s d err K S. unfold sendRaw2_with. apply tells_bind; [apply tells_send; assumption|]. intros [| |er|]; try apply told_ret; [|apply told_killed].
  apply told_bind; [apply told_errno|]. intros _. apply told_bind; [exact Tcl|]. intros _. apply told_ret.
Qed.
Lemma tells_command_tls : forall l s d err, Track l s -> c_kind c0 <> KPlain -> sendable d l -> droppable l -> tells l (sendCommandTLS_with cl d err) s.
Proof.
  intros l s d err K Kd S U. unfold sendCommandTLS_with. apply plays_getc. destruct (c_bio (s_c s)) as [b|] eqn:Eb.
  - apply tells_bind; [apply tells_puts; assumption|]. intros [| |er|]; try apply told_ret; [|apply told_killed].
    apply told_bind; [apply told_errno|]. intros _. apply told_bind; [exact Tcl|]. intros _. apply told_ret.
  - assert (Tl : T l) by (apply U; [exact Kd|apply (k_bio _ _ K), Eb]). refine (told_bind _ _ _ _ (told_errno _) _ l s K Tl).
    intros _. apply told_bind; [exact Tcl|]. intros _. apply told_ret.
Qed.
Lemma tells_command : forall l s d err, Track l s -> sendable d l -> droppable l -> tells l (sendCommandPtr_with cl d err) s.
Proof.
  intros l s d err K S U. unfold sendCommandPtr_with. apply plays_getc. destruct (c_rawptr (s_c s)); [apply tells_raw2; assumption|].
  assert (Ek := k_kind _ _ K). destruct (c_kind (s_c s)); [apply tells_raw2; assumption| |]; (apply tells_command_tls; [exact K|rewrite <- Ek; discriminate|exact S|exact U]).
Qed.
Lemma sendable_noted : forall d l, T l -> command m0 d -> sendable d (l ++ [client_says d]).
Proof. intros d l Tl C ev W. rewrite <- app_assoc. apply T_piece; [exact Tl|]. apply p_command; assumption. Qed.
Lemma droppable_noted : forall d l, T l -> header_line_of m0 d \/ d = QUIT_line -> droppable (l ++ [client_says d]).
Proof. intros d l Tl C Kd H. apply T_piece; [exact Tl|]. unfold client_says in H. rewrite channel_noted in H. apply p_unsent; assumption. Qed.
Lemma told_quit : told (sendQuit_with cl).
Proof.
  intros l s K Tl. unfold sendQuit_with. apply plays_note with (d' := QUIT_line); [reflexivity|exact K|apply T_cut, Tl|]. intros lg n K1.
  apply tells_command; [exact K1|apply (sendable_noted QUIT_line); [exact Tl|]|apply (droppable_noted QUIT_line); [exact Tl|]].
  - unfold command. do 7 right. reflexivity.
  - right. reflexivity.
Qed.
End Cleanup.

Lemma channel_freed : forall l b, has_channel c0 (l ++ [Did (EvBioFree b)]) = false.
Proof. intros. unfold has_channel, open_after. rewrite happened_app. cbn [happened flat_map app]. rewrite fold_left_app. reflexivity. Qed.
Lemma channel_ctx : forall l b, has_channel c0 (l ++ [Did (EvCtxNew b)]) = false.
Proof. intros. unfold has_channel, open_after. rewrite happened_app. cbn [happened flat_map app]. rewrite fold_left_app. reflexivity. Qed.
Lemma told_free : told free_tls.
Proof.
  intros l s K Tl. unfold free_tls. apply plays_getc.
  assert (X : forall l1 s1, Track l1 s1 -> T l1 -> c_bio (s_c s1) = c_bio (s_c s) ->
    tells l1 (updc (set_ctx None);; (match c_bio (s_c s) with Some b => emit (EvBioFree (bio_id b)) | None => ret tt end);; updc (set_bio None)) s1).
  { intros l1 s1 K1 T1 Eb. apply plays_updc. match goal with |- plays ?x _ ?s2 _ => assert (K2 : Track x s2) by (destruct K1; constructor; assumption) end.
    destruct (c_bio (s_c s)) as [b|].
    - apply plays_emit; [reflexivity|exact K2|]. intros K3. apply plays_tail, plays_updc, plays_ret.
      + destruct K3; constructor; try assumption. intros _. apply channel_freed.
      + apply T_piece; [exact T1|]. apply p_quiet. reflexivity.
    - apply plays_ret_bind, plays_tail, plays_updc, plays_ret; [|exact T1]. assert (Hb := k_bio _ _ K1 Eb). destruct K2; constructor; try assumption. intros _. exact Hb. }
  destruct (c_ctx (s_c s)) as [i|].
  - apply plays_emit; [reflexivity|exact K|]. intros K1. apply X; [exact K1|apply T_piece; [exact Tl|apply p_quiet; reflexivity]|reflexivity].
  - apply plays_ret_bind. apply X; [exact K|exact Tl|reflexivity].
Qed.
Lemma told_close : told close_socket.
Proof.
  unfold close_socket. apply told_getc. intros c _. apply told_bind; [destruct (c_sock c =? 0); [apply told_ret|apply told_emit; reflexivity]|]. intros _. apply told_updc. track.
Qed.
Lemma told_cleanup_f : forall fuel, told (cleanup_f fuel).
Proof.
  induction fuel as [|f IH]; [apply told_diverge|]. cbn [cleanup_f]. apply told_getc. intros c _. apply told_bind.
  { destruct (c_batch c && c_conn c)%bool; [|apply told_ret]. apply told_bind; [apply told_quit, IH|]. intros _. apply told_ret. }
  intros _. apply told_bind; [apply told_updc; track|]. intros _. apply told_bind; [destruct (c_kind c); [apply told_ret|apply told_free|apply told_free]|]. intros _. apply told_close.
Qed.
Lemma told_cleanup : told cleanup.
Proof. intros l s K Tl. apply (told_cleanup_f _ l s K Tl). Qed.

Lemma told_timeout : forall (x : Z), told (cleanup;; ret x).
Proof. intros x. apply told_bind; [apply told_cleanup|]. intros _. apply told_ret. Qed.
Lemma tells_raw3 : forall l s d err tmo, Track l s -> sendable d l -> tells l (sendRaw3 d err tmo) s.
Proof.
  intros l s d err tmo K S. unfold sendRaw3. apply tells_bind; [apply tells_raw2; [apply told_cleanup|exact K|exact S]|]. intros r. destruct (negb (r =? 0)); [apply told_ret|].
  apply told_bind; [apply told_raw_reply|]. intros code. destruct (negb (code =? -1)); [apply told_ret|apply told_timeout].
Qed.
Lemma tells_feedback_tls : forall l s d err tmo, Track l s -> sendable d l -> tells l (sendFeedbackTLS d err tmo) s.
Proof.
  intros l s d err tmo K S. unfold sendFeedbackTLS. apply plays_getc. destruct (c_bio (s_c s)); [|apply tells_raw3; assumption].
  apply tells_bind; [apply tells_puts; assumption|].
  assert (X : told (code <- getServerReply;; (if negb (code =? -1) then ret code else cleanup;; ret tmo))).
  { apply told_bind; [apply told_reply|]. intros code. destruct (negb (code =? -1)); [apply told_ret|apply told_timeout]. }
  intros [| |er|]; [exact X|exact X| |apply told_killed]. apply told_bind; [apply told_errno|]. intros _. apply told_timeout.
Qed.
Lemma tells_feedback : forall l s d err tmo, Track l s -> sendable d l -> tells l (sendFeedback d err tmo) s.
Proof. intros l s d err tmo K S. unfold sendFeedback. apply plays_getc. destruct (c_kind (s_c s)); [apply tells_raw3|apply tells_feedback_tls|apply tells_feedback_tls]; assumption. Qed.
Lemma tells_feedback_ptr : forall l s d err tmo, Track l s -> sendable d l -> tells l (sendFeedbackPtr d err tmo) s.
Proof. intros l s d err tmo K S. unfold sendFeedbackPtr. apply plays_getc. destruct (c_rawptr (s_c s)); [apply tells_raw3|apply tells_feedback]; assumption. Qed.

(** A note followed by what it announces. *)
Lemma told_noted : forall A C note (mm : M A) (k : A -> M C), (forall l s, Track (l ++ [client_says note]) s -> T l -> tells (l ++ [client_says note]) mm s) ->
  (forall a, told (k a)) -> told (logc note;; x <- mm;; k x).
Proof.
  intros A C note mm k H1 H2 l s K Tl. apply plays_note with (d' := note); [reflexivity|exact K|apply T_cut, Tl|]. intros lg n K1.
  apply tells_bind; [apply H1; assumption|exact H2].
Qed.
Lemma told_noted_tail : forall A note (mm : M A), (forall l s, Track (l ++ [client_says note]) s -> T l -> tells (l ++ [client_says note]) mm s) ->
  told (logc note;; mm).
Proof. intros A note mm H l s K Tl. apply plays_note with (d' := note); [reflexivity|exact K|apply T_cut, Tl|]. intros lg n K1. apply H; assumption. Qed.
Lemma told_ask : forall C d err tmo (k : Z -> M C), command m0 d -> (forall x, told (k x)) -> told (logc d;; x <- sendFeedbackPtr d err tmo;; k x).
Proof. intros C d err tmo k Cd H. apply told_noted; [|exact H]. intros l s K Tl. apply tells_feedback_ptr; [exact K|apply sendable_noted; assumption]. Qed.
Lemma told_line : forall d err, header_line_of m0 d \/ d = QUIT_line -> told (logc d;; sendCommandPtr d err).
Proof.
  intros d err H. apply told_noted_tail. intros l s K Tl. apply tells_command; [apply told_cleanup|exact K| |apply droppable_noted; assumption].
  apply sendable_noted; [exact Tl|]. destruct H as [H| ->]; unfold command; [do 5 right; left; exact H|do 7 right; reflexivity].
Qed.


(** ** EHLO and authentication *)

Lemma told_ehlo_loop : forall n tmo opts, told (ehlo_loop n tmo opts).
Proof.
  induction n as [|n IH]; intros tmo opts; cbn [ehlo_loop]; (destruct (containsAllOptions opts); [apply told_bind; [apply told_updc; track|intros _; apply told_ret]|]); [apply told_diverge|].
  apply told_bind; [apply told_reply|]. intros code. destruct (code =? -1); [apply told_ret|]. destruct (negb (code =? 250)); [apply told_ret|].
  apply told_getc. intros c _. destruct (c_resp c); [apply IH|apply told_ub].
Qed.
Lemma told_ehlo : forall err tmo, told (ehlo_with err tmo).
Proof.
  intros err tmo. unfold ehlo_with. apply told_noted.
  - intros l s K Tl. apply tells_feedback; [exact K|]. apply (sendable_noted EHLO); [exact Tl|]. left. reflexivity.
  - intros code. destruct (negb (code =? 250)); [apply told_ret|]. apply told_getc. intros c _. destruct (c_resp c); [|apply told_ub].
    apply told_gete. intros e _. apply told_ehlo_loop.
Qed.
Lemma told_secure_ident : told getServerSecureIdentification.
Proof. unfold getServerSecureIdentification. apply told_bind; [apply told_info; unfold info; cbn [In]; auto|]. intros _. apply told_ehlo. Qed.

Lemma sendable_masked : forall cr note d l, c_cred c0 = Some cr -> masked cr note d -> cstr d = d -> T l -> sendable d (l ++ [client_says note]).
Proof. intros cr note d l Ec Mk Ed Tl ev W. rewrite Ed in W. rewrite <- app_assoc. apply T_piece; [exact Tl|]. eapply p_auth; eassumption. Qed.
Lemma sendable_secret : forall cr s l, c_cred c0 = Some cr -> In (client_says (B "AUTH LOGIN ***************" ++ CRLF)) l -> s = cr_user cr \/ s = cr_pass cr -> T l ->
  sendable (Encode s ++ CRLF) l.
Proof.
  intros cr s l Ec In0 Es Tl ev W. assert (Ed : cstr (Encode s ++ CRLF) = Encode s ++ CRLF) by (apply cstr_nonul, nonul_app; [apply encode_nonul|apply crlf_nonul]).
  rewrite Ed in W. apply T_piece; [exact Tl|]. eapply p_secret; [exact Ec|exact In0|exact Es|apply (encode_line [])|exact W].
Qed.
Lemma told_plain : forall cr, c_cred c0 = Some cr -> told (authPlain cr).
Proof.
  intros cr Ec. unfold authPlain. apply told_noted_tail. intros l s K Tl. apply tells_feedback_ptr; [exact K|].
  apply sendable_masked with (cr := cr); [exact Ec| |apply (script_nonul Plain cr); left; reflexivity|exact Tl]. left. split; [reflexivity|]. apply encode_line.
Qed.
Lemma told_xoauth2 : forall cr, c_cred c0 = Some cr -> told (authXOauth2 cr).
Proof.
  intros cr Ec. unfold authXOauth2. apply told_noted_tail. intros l s K Tl. apply tells_feedback_ptr; [exact K|].
  apply sendable_masked with (cr := cr); [exact Ec| |apply (script_nonul Xoauth2 cr); left; reflexivity|exact Tl]. right. right. split; [reflexivity|]. apply encode_line.
Qed.
Lemma told_login : forall cr, c_cred c0 = Some cr -> told (authLogin cr).
Proof.
  intros cr Ec. unfold authLogin. apply told_noted_tail. intros l s K Tl. eapply plays_bind; [apply tells_feedback_ptr; [exact K|]|].
  { apply sendable_masked with (cr := cr); [exact Ec|right; left; split; reflexivity|reflexivity|exact Tl]. }
  cbv beta. intros r1 l1 s1 _ K1 T1. destruct (negb (r1 =? STATUS_CODE_SERVER_CHALLENGE)); [apply plays_ret; assumption|].
  assert (I1 : In (client_says (B "AUTH LOGIN ***************" ++ CRLF)) ((l ++ [client_says (B "AUTH LOGIN ***************" ++ CRLF)]) ++ l1)).
  { apply in_or_app. left. apply in_or_app. right. left. reflexivity. }
  eapply plays_bind; [apply tells_feedback_ptr; [exact K1|]|].
  { apply sendable_secret with (cr := cr); auto. }
  cbv beta. intros r2 l2 s2 _ K2 T2. destruct (negb (r2 =? STATUS_CODE_SERVER_CHALLENGE)); [apply plays_ret; assumption|].
  apply tells_feedback_ptr; [exact K2|]. apply sendable_secret with (cr := cr); auto. apply in_or_app. left. exact I1.
Qed.
Lemma told_authenticate : told authenticate_if_needed.
Proof.
  unfold authenticate_if_needed. apply told_getc. intros c Lc. rewrite (l_cred _ Lc). destruct (c_cred c0) as [cr|] eqn:Ec; [|apply told_ret]. apply told_bind.
  - unfold authenticateClient. apply told_getc. intros c' Lc'. rewrite (l_cred _ Lc'), Ec. destruct (c_auth c') as [o|]; [|apply told_ub].
    destruct (ao_plain o && _)%bool; [apply told_plain, Ec|]. destruct (ao_login o && _)%bool; [apply told_login, Ec|]. destruct (ao_xoauth2 o && _)%bool; [apply told_xoauth2, Ec|]. apply told_ret.
  - intros r. destruct (negb (r =? _)); apply told_ret.
Qed.

(** ** TLS *)

Lemma told_cleanup_errno : forall er (x : Z), told (cleanup;; setLastSocketErrNo er;; ret x).
Proof. intros er x. apply told_bind; [apply told_cleanup|]. intros _. apply told_bind; [apply told_errno|]. intros _. apply told_ret. Qed.
Lemma told_both : forall C note ev (k : unit -> M C), opening_event ev = false -> (forall l, piece l [both_say note; Did ev]) -> told (k tt) -> told (addLog note (B "c & s");; emit ev;; k tt).
Proof.
  intros C note ev k N P H l s K Tl. apply plays_note with (d' := note); [reflexivity|exact K|apply T_cut, Tl|]. intros lg n K1.
  apply plays_emit; [exact N|exact K1|]. intros K2. apply H; [exact K2|]. rewrite <- app_assoc. apply T_piece; [exact Tl|apply P].
Qed.
Lemma told_verify : forall b res host, told (
  emit (EvVerify b res host);;
  c <- getc;;
  if (res =? X509_V_ERR_DEPTH_ZERO_SELF_SIGNED_CERT) && c_selfsigned c then
    logs (B "Warning: Self signed certificate");; logc (B "TLS session ready!");; ret 0
  else if negb (res =? X509_V_OK) then
    e <- gete;; logs (e_x509str e res);; cleanup;; ret SSL_CLIENT_STARTTLS_VERIFY_RESULT_ERROR
  else logc (B "TLS session ready!");; ret 0).
Proof.
  intros b res host l s K Tl. assert (P := p_verified c0 e0 m0 l b res host). unfold verdict in P.
  apply plays_emit; [reflexivity|exact K|]. intros K1. apply plays_getc. rewrite (k_self _ _ K1). unfold X509_V_ERR_DEPTH_ZERO_SELF_SIGNED_CERT, X509_V_OK.
  assert (Ct : forall q, piece l (Did (EvVerify b res host) :: q) -> cut (l ++ [Did (EvVerify b res host)])) by (intros q X; eapply cut_piece; [exact Tl|exact X]).
  destruct (Z.eqb_spec res 0) as [->|N0].
  - cbn [Z.eqb andb negb] in *. apply plays_note with (d' := B "TLS session ready!"); [reflexivity|exact K1|eapply Ct, P|]. intros lg n K2. apply plays_ret; [exact K2|].
    rewrite <- app_assoc. apply T_piece; [exact Tl|exact P].
  - destruct ((res =? 18) && c_selfsigned c0)%bool; cbn [negb].
    + apply plays_note with (d' := B "Warning: Self signed certificate"); [reflexivity|exact K1|eapply Ct, P|]. intros lg n K2.
      apply plays_note with (d' := B "TLS session ready!"); [reflexivity|exact K2|rewrite <- app_assoc; eapply cut_piece; [exact Tl|exact P]|]. intros lg' n' K3. apply plays_ret; [exact K3|].
      rewrite <- !app_assoc. apply T_piece; [exact Tl|exact P].
    + apply plays_gete. rewrite (k_x509 _ _ K1). apply plays_note with (d' := e_x509str e0 res); [reflexivity|exact K1|eapply Ct, P|]. intros lg n K2.
      apply told_timeout; [exact K2|]. rewrite <- app_assoc. apply T_piece; [exact Tl|exact P].
Qed.
Lemma told_tls : told startTLSNegotiation.
Proof.
  unfold startTLSNegotiation. apply told_bind; [apply told_info; unfold info; cbn [In]; auto|]. intros _. apply told_gete. intros e _. destruct (e_tls e) as [|t ts]; [apply told_blocked|].
  apply told_bind; [apply told_upde; track|]. intros _. destruct (negb (t_ctx t)).
  { apply told_bind; [apply told_updc; track|]. intros _. apply told_bind; [apply told_errno|]. intros _. apply told_ret. }
  apply told_bind; [unfold fresh_id; apply told_gete; intros e' _; apply told_bind; [apply told_upde; track|intros _; apply told_ret]|]. intros i l s K Tl.
  apply plays_emit; [reflexivity|exact K|]. intros K1. assert (T1 : T (l ++ [Did (EvCtxNew i)])) by (apply T_piece; [exact Tl|apply p_quiet; reflexivity]).
  assert (Hc := channel_ctx l i). revert K1 T1 Hc. generalize (l ++ [Did (EvCtxNew i)]). intros l1 K1 T1 Hc. apply plays_updc.
  match goal with |- plays ?x _ ?s2 _ => assert (K2 : Track x s2) by (destruct K1; constructor; assumption); revert K2; generalize s2 end. clear s K K1. intros s K. destruct (negb (t_bio t)).
  { apply plays_updc, plays_ret; [|exact T1]. destruct K; constructor; try assumption. intros _. exact Hc. }
  unfold fresh_id. eapply plays_bind; [apply (told_gete _ (fun e => upde (set_next (S (e_next e)));; ret (e_next e))); [|exact K|exact T1]|].
  { intros e' _. apply told_bind; [apply told_upde; track|]. intros _. apply told_ret. }
  cbv beta. intros b l2 s2 _ K2 T2. apply plays_getc.
  assert (K3 : Track ((l1 ++ l2) ++ [Did (EvBioNew b (c_sock (s_c s2)))]) (c_state (ev_state s2 (EvBioNew b (c_sock (s_c s2)))) (set_bio (Some (mkBio b (c_sock (s_c s2))))))).
  { destruct K2; constructor; try assumption; unfold ev_state, c_state; cbn [s_c s_e s_t].
    - rewrite k_trace0, (happened_app (l1 ++ l2)), app_assoc. reflexivity.
    - rewrite entries_app. cbn. rewrite app_nil_r. exact k_log0.
    - discriminate. }
  apply plays_extend with (l1 := [Did (EvBioNew b (c_sock (s_c s2)))]).
  assert (T3 : T ((l1 ++ l2) ++ [Did (EvBioNew b (c_sock (s_c s2)))])) by (apply T_piece; [exact T2|apply p_quiet; reflexivity]).
  refine ((_ : told _) _ _ K3 T3). destruct (c_server (s_c s2)) as [name|]; [|apply told_ub].
  destruct (SERVERNAMEANDPORT_LENGTH <? _)%N; [apply told_ub|]. destruct (negb (t_paths t)); [apply told_ret|]. destruct (negb (t_connect t)).
  { apply told_bind; [apply told_emit; reflexivity|]. intros _. apply told_cleanup_errno. }
  refine (told_both _ _ _ (fun _ => _) _ _ _); [reflexivity|intros; apply p_handshake|]. destruct (negb (t_handshake t)); [apply told_cleanup_errno|].
  refine (told_both _ _ _ (fun _ => _) _ _ _); [reflexivity|intros; apply p_certificate|]. destruct (negb (t_cert t)); [apply told_timeout|]. apply told_verify.
Qed.

(** ** The connection *)

Definition mute (lb : label) : Prop := match lb with LSend _ | LPuts _ | LUpgrade | LConn => False | _ => True end.
Lemma steps_mute : forall s s', steps mute s s' -> exists evs, s_t s' = s_t s ++ evs /\ no_writes evs.
Proof.
  intros s s' H. induction H as [s|lb s1 s2 s3 E P _ IH].
  - exists []. rewrite app_nil_r. split; [reflexivity|intros ev []].
  - destruct IH as (evs & E3 & N3). assert (X : exists ev1, s_t s2 = s_t s1 ++ ev1 /\ no_writes ev1).
    { assert (One : forall ev, (forall d, ~ writes d ev) -> no_writes [ev]) by (intros ev Q x [<-|[]] [d W]; exact (Q d W)).
      assert (Nil : no_writes []) by (intros ev []).
      assert (App : forall a b, no_writes a -> no_writes b -> no_writes (a ++ b)) by (intros a b A1 A2 x I; apply in_app_or in I as [I|I]; auto).
      destruct E; try (exists []; rewrite app_nil_r; split; [reflexivity|exact Nil]); try destruct P;
        try (eexists; split; [reflexivity|apply One; intros d [(fd & r' & W)|(b & r' & W)]; discriminate W]).
      - exists []. rewrite app_nil_r. split; [|exact Nil]. apply addLog_core in H. apply H.
      - exists [ev]. split; [reflexivity|]. apply One. intros d [(fd & r' & ->)|(b & r' & ->)]; inversion H.
      - unfold teardown. destruct (c_kind (s_c s)); cbn [s_t]; (eexists; split; [reflexivity|]); repeat apply App;
          try (destruct (c_sock (s_c s) =? 0)); try (destruct (c_ctx (s_c s))); try (destruct (c_bio (s_c s)));
          first [exact Nil|apply One; intros d [(fd & r' & W)|(b' & r' & W)]; discriminate W].
      - exists [ev]. split; [reflexivity|]. apply One. intros d [(fd & r' & ->)|(b & r' & ->)]; inversion H.
      - exists [ev]. split; [reflexivity|]. apply One. intros d [(fd & r' & ->)|(b & r' & ->)]; inversion H. }
    destruct X as (ev1 & E1 & N1). exists (ev1 ++ evs). rewrite E3, E1, app_assoc. split; [reflexivity|].
    intros x I. apply in_app_or in I as [I|I]; auto.
Qed.
Lemma mute_happened : forall l l1 s s1, Track l s -> Track (l ++ l1) s1 -> steps mute s s1 -> no_writes (happened l) -> no_writes (happened (l ++ l1)).
Proof.
  intros l l1 s s1 K K1 S N. destruct (steps_mute _ _ S) as (evs & E & Ne). rewrite (k_trace _ _ K), (k_trace _ _ K1), <- app_assoc in E. apply app_inv_head in E. rewrite E.
  intros x I. apply in_app_or in I as [I|I]; auto.
Qed.


Lemma mute_base : forall lb, ProofWalk.base lb -> mute lb.
Proof. intros [] H; try destruct H; exact Logic.I. Qed.
Lemma walk_steps : forall A (P : label -> Prop) (mm : M A) s a s', walk P mm s -> mm s = (Done a, s') -> steps P s s'.
Proof. intros A P mm s a s' [W _] E. rewrite E in W. exact W. Qed.

(** Until the greeting nothing is written. *)
Lemma plays_initialize : forall s, base = [] -> Track [] s -> plays [] initializeSession s (fun _ l => T l /\ no_writes (happened l)).
Proof.
  intros s Eb K. assert (H := told_initialize s Eb K). destruct H as (l' & K' & H). exists l'. split; [exact K'|].
  assert (W : walk mute initializeSession s) by (apply winitialize; first [exact mute_base|exact Logic.I|exact (fun x => x)]).
  destruct W as [W _]. assert (N := mute_happened _ _ _ _ K K' W (fun ev (I : In ev []) => match I with end)).
  destruct (fst (initializeSession s)); try exact H. split; [exact H|exact N].
Qed.
Lemma initialize_steps : forall s a s', initializeSession s = (Done a, s') -> steps mute s s'.
Proof. intros s a s' E. eapply walk_steps; [apply winitialize; first [exact mute_base|exact Logic.I|exact (fun x => x)]|exact E]. Qed.

Lemma told_upgrade : told upgradeToSecureConnection.
Proof.
  unfold upgradeToSecureConnection. apply told_noted_tail. intros l s K Tl. apply tells_raw3; [exact K|].
  apply (sendable_noted (B "STARTTLS" ++ CRLF)); [exact Tl|]. right. left. reflexivity.
Qed.
Lemma tells_establish : forall s, base = [] -> Track [] s -> c_conn c0 = false -> c_conn (s_c s) = false -> tells [] establish s.
Proof.
  intros s Eb K Cn Cs. unfold establish. apply plays_getc. destruct (c_kind (s_c s)).
  - unfold establishPlain. eapply plays_bind; [apply plays_initialize; assumption|]. cbv beta. intros r l1 s1 _ K1 [T1 N1]. destruct (negb (r =? 0)); [apply plays_ret; assumption|].
    apply tells_bind; [apply tells_greetings; assumption|]. intros g. destruct (negb (g =? _)); [apply told_ret|].
    apply told_bind; [apply told_ehlo|]. intros i. destruct (negb (i =? _)); [apply told_ret|]. apply told_authenticate.
  - unfold establishOpp. eapply plays_bind; [apply plays_initialize; assumption|]. cbv beta. intros r l1 s1 _ K1 [T1 N1]. destruct (negb (r =? 0)); [apply plays_ret; assumption|].
    apply tells_bind; [apply tells_greetings; assumption|]. intros g. destruct (negb (g =? _)); [apply told_ret|].
    apply told_bind; [apply told_ehlo|]. intros i. destruct (negb (i =? _)); [apply told_ret|]. apply told_getc. intros c _.
    apply told_bind; [destruct (isStartTLSSupported (c_resp c)); first [apply told_stop; discriminate|apply told_ret]|]. intros [|].
    + apply told_bind; [apply told_info; unfold info; cbn [In]; auto|]. intros _. apply told_bind; [apply told_upgrade|]. intros u. destruct (negb (u =? _)); [apply told_ret|].
      apply told_bind; [apply told_tls|]. intros t. destruct (negb (t =? 0)); [apply told_ret|]. apply told_bind; [apply told_secure_ident|]. intros z. destruct (negb (z =? _)); [apply told_ret|].
      apply told_authenticate.
    + apply told_bind; [apply told_info; unfold info; cbn [In]; auto|]. intros _. apply told_bind; [apply told_updc; track|]. intros _. apply told_ret.
  - unfold establishForced. eapply plays_bind; [apply plays_initialize; assumption|]. cbv beta. intros r l1 s1 E1 K1 [T1 N1]. destruct (negb (r =? 0)); [apply plays_ret; assumption|].
    assert (Q : quit_ok mute s1).
    { eapply steps_quit; [|apply (initialize_steps _ _ _ E1)|apply disconnected_quit; exact Cs]. intros []. }
    assert (W : walk mute startTLSNegotiation s1) by (apply wtls; [apply mute_base|intros []|exact Logic.I|exact Q]).
    eapply plays_bind; [apply told_tls; assumption|]. cbv beta. intros t l2 s2 E2 K2 T2. destruct (negb (t =? 0)); [apply plays_ret; assumption|].
    assert (N2 := mute_happened _ _ _ _ K1 K2 (walk_steps _ _ _ _ _ _ W E2) N1).
    apply tells_bind; [apply tells_greetings_tls; assumption|]. intros g. destruct (negb (g =? _)); [apply told_ret|].
    apply told_bind; [apply told_secure_ident|]. intros z. destruct (negb (z =? _)); [apply told_ret|]. apply told_authenticate.
Qed.

(** ** The mail *)

Lemma told_mail_from : forall fs last, (forall f, In f fs -> command m0 f) -> told (mail_from_loop fs last).
Proof.
  induction fs as [|f fs IH]; intros last H; [apply told_ret|]. cbn [mail_from_loop]. apply told_ask; [apply H; left; reflexivity|]. intros code.
  destruct (code =? 250); [apply told_ret|]. destruct (negb (code =? 501)); [apply told_ret|]. apply IH. intros g I. apply H. right. exact I.
Qed.
Lemma told_rcpt : forall l result, (forall a, In a l -> In a (recipients m0)) -> told (addMailRecipients l result).
Proof.
  induction l as [|a l IH]; intros result H; [apply told_ret|]. cbn [addMailRecipients]. apply told_ask; [|intros code; apply IH; intros b I; apply H; right; exact I].
  right. right. right. left. exists a. split; [apply H; left; reflexivity|reflexivity].
Qed.
Lemma told_recipients : forall ls, (forall x a, In x ls -> In a (listed x) -> In a (recipients m0)) -> told (recipients_loop ls).
Proof.
  induction ls as [|[n|l] ls IH]; intros H; cbn [recipients_loop]; [apply told_ret|apply IH; intros x a I; apply H; right; exact I|].
  apply told_bind; [apply told_rcpt; intros a I; apply (H (AArr l) a (or_introl eq_refl) I)|]. intros code. destruct (negb (code =? 250)); [apply told_ret|].
  apply IH. intros x a I. apply H. right. exact I.
Qed.
Lemma told_set_recipients : told (setMailRecipients m0).
Proof.
  unfold setMailRecipients. apply told_bind; [apply told_mail_from; intros f I; right; right; left; exact I|]. intros code. destruct (negb (code =? 250)); [apply told_ret|].
  apply told_recipients. intros x a I Ia. unfold recipients. rewrite !in_app_iff. destruct I as [<-|[<-|[<-|[]]]]; auto.
Qed.

Lemma head_removelast : removelast (header_fields m0) = [B "From: " ++ show_address (m_from m0)] ++ address_field (B "To") (listed (m_to m0)) ++
  address_field (B "Cc") (listed (m_cc m0)) ++ [B "Subject: " ++ m_subject m0].
Proof.
  unfold header_fields. change [B "Subject: " ++ m_subject m0; B "Content-Type: multipart/related; boundary=sep"]
    with ([B "Subject: " ++ m_subject m0] ++ [B "Content-Type: multipart/related; boundary=sep"]). rewrite !app_assoc. apply removelast_last.
Qed.
Lemma head_last : last (header_fields m0) [] = B "Content-Type: multipart/related; boundary=sep".
Proof.
  unfold header_fields. change [B "Subject: " ++ m_subject m0; B "Content-Type: multipart/related; boundary=sep"]
    with ([B "Subject: " ++ m_subject m0] ++ [B "Content-Type: multipart/related; boundary=sep"]). rewrite !app_assoc. apply last_last.
Qed.
Lemma head_field : forall f d, In f (removelast (header_fields m0)) -> d = f ++ CRLF -> header_line_of m0 d.
Proof. intros f d I E. left. exists f. split; assumption. Qed.
Lemma told_header : forall field value err, header_line_of m0 (header_line field value) -> told (addMailHeader field value err).
Proof. intros field value err H. unfold addMailHeader. apply told_line. left. exact H. Qed.
Lemma told_address_header : forall field a err', (forall d, In d (address_field field (listed a)) -> In d (removelast (header_fields m0))) -> err' = CLIENT_SENDMAIL_HEADERTOANDCC_ERROR -> told (address_header field a).
Proof.
  intros field a err' H _. destruct a as [[|n]|[|x l]]; cbn [address_header]; try apply told_ret; [apply told_ub|].
  apply told_bind; [|intros _; apply told_ret]. apply told_header. rewrite field_line. eapply head_field; [|reflexivity]. apply H. left. reflexivity.
Qed.
Lemma told_headers : told (setMailHeaders m0).
Proof.
  unfold setMailHeaders. apply told_ask; [do 4 right; left; reflexivity|]. intros d. destruct (negb (d =? _)); [apply told_ret|]. apply told_bind.
  { apply told_header. apply head_field with (f := B "From: " ++ show_address (m_from m0)).
    - rewrite head_removelast. left. reflexivity.
    - unfold header_line, address_str, show_address. destruct (a_name (m_from m0)); rewrite <- ?app_assoc; reflexivity. }
  intros f. destruct (negb (f =? 0)); [apply told_ret|].
  apply told_bind; [eapply told_address_header; [|reflexivity]; intros x I; rewrite head_removelast, !in_app_iff; auto|]. intros _.
  apply told_bind; [eapply told_address_header; [|reflexivity]; intros x I; rewrite head_removelast, !in_app_iff; auto|]. intros _.
  assert (X : forall C h err (k : Z -> M C), header_line_of m0 h -> (forall x, told (k x)) -> told (logc h;; x <- sendCommandPtr h err;; k x)).
  { intros C h err k Hh Hk. apply told_noted; [|exact Hk]. intros l s K Tl. apply tells_command; [apply told_cleanup|exact K| |apply droppable_noted; auto].
    apply sendable_noted; [exact Tl|]. do 5 right. left. exact Hh. }
  apply X.
  { apply head_field with (f := B "Subject: " ++ m_subject m0); [rewrite head_removelast, !in_app_iff; right; right; right; left; reflexivity|]. unfold header_line. rewrite <- app_assoc. reflexivity. }
  intros z. destruct (negb (z =? 0)); [apply told_ret|]. apply X; [right; rewrite head_last; reflexivity|]. intros t. destruct (negb (t =? 0)); apply told_ret.
Qed.

Lemma plays_command : forall l s d err, Track l s -> sendable d l -> droppable l ->
  plays l (sendCommandPtr d err) s (fun r l' => (r = err /\ T l') \/ (r = 0 /\ exists ev, writes (cstr d) ev /\ l' = l ++ [Did ev])).
Proof.
  intros l s d err K S U.
  assert (Fin : forall l1 s1 er, Track l1 s1 -> T l1 ->
    plays l1 (setLastSocketErrNo er;; cleanup;; ret err) s1 (fun r l' => (r = err /\ T l') \/ (r = 0 /\ exists ev, writes (cstr d) ev /\ l' = l ++ [Did ev]))).
  { intros l1 s1 er K1 T1. eapply plays_bind; [apply told_errno; assumption|]. cbv beta. intros _ l2 s2 _ K2 T2. eapply plays_bind; [apply told_cleanup; assumption|].
    cbv beta. intros _ l3 s3 _ K3 T3. apply plays_ret; [exact K3|]. left. split; [reflexivity|exact T3]. }
  assert (Wr : forall (io : M send_res) l1 s1, plays l1 io s1 (fun _ l' => exists ev, writes (cstr d) ev /\ l' = l ++ [Did ev]) ->
    plays l1 (r <- io;; match r with WErr er => setLastSocketErrNo er;; cleanup;; ret err | WSigpipe => killed | _ => ret 0 end) s1
      (fun r l' => (r = err /\ T l') \/ (r = 0 /\ exists ev, writes (cstr d) ev /\ l' = l ++ [Did ev]))).
  { intros io l1 s1 H. eapply plays_bind; [exact H|]. cbv beta. intros r l2 s2 _ K2 (ev & W & E).
    assert (T2 : T (l1 ++ l2)) by (rewrite E; apply S, W).
    destruct r; [apply plays_ret; [exact K2|]; right; eauto|apply plays_ret; [exact K2|]; right; eauto|apply Fin; assumption|].
    apply (plays_stop Z _ Killed); [discriminate|exact K2|apply T_cut, T2]. }
  unfold sendCommandPtr, sendCommandPtr_with. apply plays_getc. assert (Ek := k_kind _ _ K).
  assert (R : plays l (sendRaw2_with cleanup d err) s (fun r l' => (r = err /\ T l') \/ (r = 0 /\ exists ev, writes (cstr d) ev /\ l' = l ++ [Did ev]))).
  { unfold sendRaw2_with. apply Wr. apply plays_send, K. }
  assert (R' : c_kind c0 <> KPlain -> plays l (sendCommandTLS_with cleanup d err) s (fun r l' => (r = err /\ T l') \/ (r = 0 /\ exists ev, writes (cstr d) ev /\ l' = l ++ [Did ev]))).
  { intros Kd. unfold sendCommandTLS_with. apply plays_getc. destruct (c_bio (s_c s)) as [b|] eqn:Eb; [apply Wr; apply plays_puts, K|].
    apply Fin; [exact K|]. apply U; [exact Kd|apply (k_bio _ _ K), Eb]. }
  destruct (c_rawptr (s_c s)); [exact R|]. destruct (c_kind (s_c s)); [exact R| |]; (apply R'; rewrite <- Ek; discriminate).
Qed.

Notation text_note := (client_says (join CRLF (text_lines m0))).
Lemma body_so_far : forall l sent rest evs, T l -> concat (sent ++ rest) = body_text (e_fs e0) m0 -> Forall2 writes (map cstr sent) evs -> T (l ++ text_note :: map Did evs).
Proof. intros l sent rest evs Tl C F. apply T_piece; [exact Tl|]. eapply p_body; eassumption. Qed.
Lemma tells_chunks : forall xs err sent evs l s, err <> 0 -> T l -> Track (l ++ text_note :: map Did evs) s -> concat (sent ++ xs) = body_text (e_fs e0) m0 ->
  Forall2 writes (map cstr sent) evs -> tells (l ++ text_note :: map Did evs) (send_chunks xs err) s.
Proof.
  induction xs as [|x xs IH]; intros err sent evs l s Ne Tl K C F; cbn [send_chunks].
  - apply plays_ret; [exact K|]. eapply body_so_far; eassumption.
  - assert (Step : forall ev, writes (cstr x) ev -> Forall2 writes (map cstr (sent ++ [x])) (evs ++ [ev])).
    { intros ev W. rewrite map_app. apply Forall2_app; [exact F|]. constructor; [exact W|constructor]. }
    assert (C' : concat ((sent ++ [x]) ++ xs) = body_text (e_fs e0) m0) by (rewrite <- app_assoc; exact C).
    assert (El : forall ev, (l ++ text_note :: map Did evs) ++ [Did ev] = l ++ text_note :: map Did (evs ++ [ev])) by (intros ev; rewrite <- app_assoc, map_app; reflexivity).
    eapply plays_bind; [apply plays_command; [exact K| |]|].
    + intros ev W. rewrite El. eapply body_so_far; [exact Tl|exact C'|apply Step, W].
    + intros _ _. exact (body_so_far l sent (x :: xs) evs Tl C F).
    + cbv beta. intros r l1 s1 _ K1 [[-> T1]|(-> & ev & W & E1)].
      * replace (negb (err =? 0)) with true by (symmetry; apply negb_true_iff, Z.eqb_neq, Ne). apply plays_ret; assumption.
      * cbn [Z.eqb negb]. rewrite E1, El in *. apply (IH err (sent ++ [x]) (evs ++ [ev])); auto.
Qed.
Lemma told_body : told (setMailBody m0).
Proof.
  intros l s K Tl. unfold setMailBody. rewrite body_text_part_eq. apply plays_note with (d' := join CRLF (text_lines m0)); [reflexivity|exact K|apply T_cut, Tl|]. intros lg n K1.
  apply plays_gete. rewrite (k_fs _ _ K1).
  assert (T1 : T (l ++ [text_note])) by (apply (body_so_far l [] [body_text (e_fs e0) m0] []); [exact Tl|apply app_nil_r|constructor]).
  destruct (body_real (e_fs e0) m0) as [body| | | | |] eqn:Eb; try (exists []; rewrite app_nil_r; split; [exact K1|apply T_cut, T1]).
  apply plays_lift. apply tells_bind.
  - apply (tells_chunks _ _ [] [] l); [destruct (512 <? length body)%nat; discriminate|exact Tl|exact K1| |constructor].
    cbn [app]. rewrite (proj1 (body_chunks_spec body)). apply body_real_eq, Eb.
  - intros r. destruct (negb (r =? 0)); [apply told_ret|]. apply told_ask; [do 6 right; left; reflexivity|]. intros d. destruct (negb (d =? _)); [apply told_ret|].
    apply told_getc. intros c _. destruct (c_batch c); [apply told_ret|]. apply told_bind; [apply told_quit, told_cleanup|]. intros q. destruct (negb (q =? 0)); apply told_ret.
Qed.
Lemma told_transaction : told (mail_transaction m0).
Proof.
  unfold mail_transaction. apply told_bind; [apply told_set_recipients|]. intros r. destruct (negb (r =? 0)); [apply told_ret|].
  apply told_bind; [apply told_headers|]. intros h. destruct (negb (h =? 0)); [apply told_ret|]. apply told_bind; [apply told_body|]. intros b. destruct (negb (b =? 0)); [apply told_ret|].
  apply told_getc. intros c _. apply told_bind; [destruct (c_batch c); [apply told_ret|apply told_cleanup]|]. intros _. apply told_ret.
Qed.

End Transcript.

Lemma sendMail_account : forall m s, (c_conn (s_c s) = true -> good_log (s_c s)) ->
  exists l, s_t (snd (sendMail m s)) = s_t s ++ happened l /\
    log_of (s_c (snd (sendMail m s))) = (if c_conn (s_c s) then log_of (s_c s) else []) ++ log_text (entries l) /\
    account (s_c s) (s_e s) m (fst (sendMail m s)) l.
Proof.
  intros m s G. set (base := if c_conn (s_c s) then log_of (s_c s) else []).
  assert (X : exists s0, sendMail m s = sendMail m s0 /\ Track (s_c s) (s_e s) (s_t s) base [] s0 /\ c_conn (s_c s0) = c_conn (s_c s)).
  { destruct (c_conn (s_c s)) eqn:Cn.
    - exists s. split; [reflexivity|]. split; [|exact Cn]. constructor; try reflexivity; [cbn; rewrite app_nil_r; reflexivity|cbn; unfold base; rewrite app_nil_r; reflexivity|apply G; reflexivity|].
      intros E. unfold has_channel. rewrite E. reflexivity.
    - exists (fresh_log s). split; [apply sendMail_fresh; exact Cn|]. split; [|exact Cn]. constructor; try reflexivity; [cbn; rewrite app_nil_r; reflexivity|apply good_fresh|].
      intros E. unfold has_channel. change (c_bio (s_c (fresh_log s))) with (c_bio (s_c s)) in E. rewrite E. reflexivity. }
  destruct X as (s0 & -> & K & Cn). assert (P : tells (s_c s) (s_e s) m (s_t s) base [] (sendMail m) s0).
  { unfold sendMail. apply plays_getc. eapply plays_bind with (Q1 := fun _ l => transcript (s_c s) (s_e s) m l).
    - destruct (c_conn (s_c s0)) eqn:C0; [apply plays_ret; [exact K|constructor]|].
      apply tells_establish; [unfold base; rewrite <- Cn; reflexivity|exact K|symmetry; exact Cn|exact C0].
    - cbv beta. intros r l1 s1 _ K1 T1. destruct (negb (r =? 0)); [apply plays_ret; assumption|]. apply plays_updc. apply told_transaction; [|exact T1]. destruct K1; constructor; assumption. }
  destruct P as (l & Kl & H). exists l. split; [apply (k_trace _ _ _ _ _ _ Kl)|]. split; [apply (k_log _ _ _ _ _ _ Kl)|].
  destruct (fst (sendMail m s0)); exact H.
Qed.

(** ** All clients *)

Lemma logs_set : forall l i v, map (option_map getCommunicationLog) (list_set l i v) = replaced (map (option_map getCommunicationLog) l) i (option_map getCommunicationLog v).
Proof. induction l as [|x r IH]; intros [|i] v; cbn; try reflexivity. now rewrite IH. Qed.
Lemma logs_nth : forall w i, nth i (all_logs w) None = option_map getCommunicationLog (get_client w i).
Proof.
  intros w i. unfold all_logs, get_client. revert i. induction (w_clients w) as [|x r IH]; intros [|i]; cbn; try reflexivity; [destruct x; reflexivity|apply IH].
Qed.
Lemma logs_put : forall i v w, all_logs (put_client i v w) = replaced (all_logs w) i (option_map getCommunicationLog v).
Proof. intros. apply logs_set. Qed.
Lemma logs_push : forall c w, all_logs (push_client c w) = all_logs w ++ [Some (getCommunicationLog c)].
Proof. intros. unfold all_logs, push_client. cbn. now rewrite map_app. Qed.
Lemma replaced_same : forall (l : list (option str)) i, replaced l i (nth i l None) = l.
Proof. induction l as [|x r IH]; intros [|i]; cbn; try reflexivity. f_equal. apply IH. Qed.
Lemma alter_logs : forall i f w, (forall c c', f c = Done c' -> getCommunicationLog c' = getCommunicationLog c) -> all_logs (snd (alter i f w)) = all_logs w.
Proof.
  intros i f w H. unfold alter. destruct (get_client w i) as [c|] eqn:G; [|reflexivity]. destruct (f c) as [c'| | | | |] eqn:F; cbn [snd]; try reflexivity.
  rewrite logs_put. cbn [option_map]. rewrite (H _ _ F). replace (Some (getCommunicationLog c)) with (nth i (all_logs w) None) by (rewrite logs_nth, G; reflexivity). apply replaced_same.
Qed.

Lemma other_logs : forall o w, ~ sends o -> all_logs (snd (step o w)) = carried o (fst (step o w)) (all_logs w).
Proof.
  intros o w NS. destruct o; cbn [step sends] in *; try (exfalso; apply NS; exact Logic.I).
  - unfold client_new. destruct (check_server_name server); cbn [obind create fst snd carried]; try reflexivity. now rewrite logs_push.
  - destruct (get_client w src) as [c|] eqn:G; [|reflexivity]. unfold client_copy. destruct (c_server c); cbn [create fst snd carried]; [|reflexivity].
    rewrite logs_push, logs_nth, G. unfold getCommunicationLog. cbn. destruct (c_log c); reflexivity.
  - destruct (get_client w src) as [c|] eqn:G; [|reflexivity]. cbn [fst snd carried]. rewrite logs_push, logs_put, logs_nth, G. reflexivity.
  - destruct (get_client w dst) as [d|] eqn:Gd; [|reflexivity]. destruct (get_client w src) as [c|] eqn:Gs; [|reflexivity].
    destruct (Nat.eqb dst src) eqn:Eq.
    + apply Nat.eqb_eq in Eq. subst src. cbn [fst snd carried]. now rewrite replaced_same.
    + destruct (kind_eqb _ _); [|reflexivity]. unfold alter. rewrite Gd. unfold client_assign. destruct (c_server c); cbn [fst snd carried]; [|reflexivity].
      rewrite logs_put, logs_nth, Gs. unfold getCommunicationLog. cbn. destruct (c_log c); reflexivity.
  - destruct (get_client w dst) as [d|] eqn:Gd; [|reflexivity]. destruct (get_client w src) as [c|] eqn:Gs; [|reflexivity].
    destruct (Nat.eqb dst src) eqn:Eq; cbn [fst snd carried]; [now rewrite Eq|]. destruct (kind_eqb _ _); [|reflexivity]. cbn [fst snd carried]. rewrite Eq, !logs_put, logs_nth, Gs. reflexivity.
  - rewrite alter_logs; [destruct (fst _); reflexivity|]. intros c c' F. unfold client_setServerName in F. destruct (check_server_name server); inversion F; reflexivity.
  - rewrite alter_logs; [destruct (fst _); reflexivity|]. intros c c' F. inversion F; reflexivity.
  - rewrite alter_logs; [destruct (fst _); reflexivity|]. intros c c' F. inversion F; reflexivity.
  - rewrite alter_logs; [destruct (fst _); reflexivity|]. intros c c' F. inversion F; reflexivity.
  - rewrite alter_logs; [destruct (fst _); reflexivity|]. intros c0 c' F. inversion F; reflexivity.
  - rewrite alter_logs; [destruct (fst _); reflexivity|]. intros c c' F. inversion F; reflexivity.
  - rewrite alter_logs; [destruct (fst _); reflexivity|]. intros c c' F. destruct (c_kind c); inversion F; reflexivity.
  - unfold run_on. destruct (get_client w i) as [c|] eqn:G.
    + destruct ((cleanup;; ret 0) (mkSt c (w_env w) (w_trace w))) as [x s] eqn:E. cbn [fst snd carried]. unfold all_logs at 1. cbn [w_clients]. now rewrite logs_set.
    + cbn [fst snd carried]. replace (@None str) with (nth i (all_logs w) None) by (rewrite logs_nth, G; reflexivity). now rewrite replaced_same.
Qed.

Lemma world_account : forall ops e i c m, let w := snd (run ops (initial_world e)) in let r := step (OSend i m) w in
  get_client w i = Some c -> exists l,
  w_trace (snd r) = w_trace w ++ happened l /\
  all_logs (snd r) = replaced (all_logs w) i (Some ((if c_conn c then getCommunicationLog c else []) ++ log_text (entries l))) /\
  account c (w_env w) m (fst r) l.
Proof.
  intros ops e i c m w r G. assert (F := run_fit ops e i c G).
  destruct (sendMail_account m (mkSt c (w_env w) (w_trace w)) (f_log _ _ _ F)) as (l & Ht & Hl & Ha). exists l.
  unfold r. cbn [step]. unfold run_on. rewrite G. destruct (sendMail m _) as [x s]. cbn [fst snd s_t s_c s_e] in *. split; [exact Ht|]. split; [|exact Ha].
  unfold all_logs at 1. cbn [w_clients]. rewrite logs_set. cbn [option_map]. change (getCommunicationLog (s_c s)) with (log_of (s_c s)). rewrite Hl. reflexivity.
Qed.

(** ** What is not a transcript *)

Lemma piece_nonempty : forall c e m l p, piece c e m l p -> p <> [].
Proof.
  intros c e m l p H. destruct H; try discriminate; intros X; apply (f_equal (@length item)) in X; rewrite ?app_length, ?map_length, ?app_length in X; cbn in X; lia.
Qed.
Lemma single_transcript : forall c e m i, transcript c e m [i] -> piece c e m [] [i].
Proof.
  intros c e m i H. remember [i] as z eqn:E. destruct H as [|l p Hl Hp]; [discriminate E|]. assert (N := piece_nonempty _ _ _ _ _ Hp).
  destruct l as [|y l]; [exact Hp|]. destruct p as [|x p]; [now elim N|]. destruct l; discriminate E.
Qed.
Lemma no_invented_reply : forall c e m d, ~ transcript c e m [server_says d].
Proof.
  intros c e m d H. apply single_transcript in H. remember [server_says d] as p eqn:E. destruct H; try discriminate E.
  - destruct H as [er ->]. discriminate E.
  - unfold info in H. cbn in H. intuition (subst; discriminate E).
  - apply (f_equal (@length item)) in E. rewrite !app_length, map_length, app_length in E. cbn in E. lia.
  - destruct evs as [|ev evs]; [now elim H0|discriminate E].
  - apply (f_equal (@length item)) in E. rewrite !app_length, map_length, app_length in E. cbn in E. lia.
  - destruct waiting; discriminate E.
Qed.
Lemma no_silent_write : forall c e m ev, c_cred c = None -> (exists fd d r, ev = EvSend fd d r) \/ (exists b d r, ev = EvPuts b d r) -> ~ transcript c e m [Did ev].
Proof.
  intros c e m ev Cr W H. apply single_transcript in H. remember [Did ev] as p eqn:E. destruct H; try discriminate E.
  - inversion E; subst. destruct W as [(fd & d & r & ->)|(b & d & r & ->)]; exact H.
  - destruct H as [er ->]. discriminate E.
  - unfold info in H. cbn in H. intuition (subst; discriminate E).
  - inversion E. unfold verdict in *. destruct (res =? 0)%Z; [discriminate|destruct ((res =? 18)%Z && c_selfsigned c); discriminate].
  - rewrite Cr in H. discriminate H.
  - apply (f_equal (@length item)) in E. rewrite !app_length, map_length, app_length in E. cbn in E. lia.
  - apply (f_equal (@length item)) in E. rewrite !app_length, map_length in E. cbn in E. destruct evs; [now elim H0|cbn in E; lia].
  - apply (f_equal (@length item)) in E. rewrite !app_length, map_length, app_length in E. cbn in E. lia.
  - destruct waiting as [|w [|w' waiting]]; try discriminate E. inversion E; subst. destruct H as (_ & [(fd & r & X)|(b & r & X)] & _); subst; destruct W as [(? & ? & ? & Y)|(? & ? & ? & Y)]; discriminate Y.
Qed.
Lemma no_unsent_command : forall c e m a, c_kind c = KPlain -> (forall er, e_strerror e er <> rcpt_line a) -> ~ transcript c e m [client_says (rcpt_line a)].
Proof.
  intros c e m a K D H. apply single_transcript in H. remember [client_says (rcpt_line a)] as p eqn:E. destruct H; try discriminate E.
  - destruct H as [er ->]. inversion E. now elim (D er).
  - unfold info in H. cbn [In] in H. intuition (subst; discriminate E).
  - now elim H.
  - destruct waiting; discriminate E.
  - destruct evs; [now elim H0|discriminate E].
  - destruct waiting; discriminate E.
  - destruct waiting; discriminate E.
Qed.
