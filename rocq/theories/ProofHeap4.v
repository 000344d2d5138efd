(** Ownership: messages and clients. *)

From Coq Require Import Ascii String List NArith ZArith Bool Arith Lia Permutation.
From Verif Require Import Base ModelUtil ModelBase64 ModelAddress ModelAttachment ModelMessage ModelHeap
  ProofText ProofHeap ProofHeap2 ProofHeap3.
Import ListNotations.
Open Scope nat_scope.

Lemma get_addr_spec : forall U E a o,
  tri U E [(a, mkB One (AddrObj o))] (get_addr (Some a)) (fun x G => x = o /\ G = [(a, mkB One (AddrObj o))]).
Proof.
  intros. unfold get_addr. eapply tri_seq; [ apply (tri_get _ _ _ a (mkB One (AddrObj o))) | perm | ].
  intros c G (-> & ->). cbn. eapply tri_ret; [ perm | now split ].
Qed.
Lemma get_att_spec : forall U E a o,
  tri U E [(a, mkB One (AttObj o))] (get_att (Some a)) (fun x G => x = o /\ G = [(a, mkB One (AttObj o))]).
Proof.
  intros. unfold get_att. eapply tri_seq; [ apply (tri_get _ _ _ a (mkB One (AttObj o))) | perm | ].
  intros c G (-> & ->). cbn. eapply tri_ret; [ perm | now split ].
Qed.
Lemma get_cred_spec : forall U E a o,
  tri U E [(a, mkB One (CredObj o))] (get_cred (Some a)) (fun x G => x = o /\ G = [(a, mkB One (CredObj o))]).
Proof.
  intros. unfold get_cred. eapply tri_seq; [ apply (tri_get _ _ _ a (mkB One (CredObj o))) | perm | ].
  intros c G (-> & ->). cbn. eapply tri_ret; [ perm | now split ].
Qed.

Definition gaddrs := garr addr_obj vaddr.
Definition gatts := garr att_obj vatt.
Definition faddrs (g : gaddrs) : foot := farr _ _ AddrObj faddr g.
Definition caddrs (p : ptr) (n : nat) (g : gaddrs) : Prop := carr _ _ caddr p n g.
Definition fatts (g : gatts) : foot := farr _ _ AttObj fatt g.
Definition catts (p : ptr) (n : nat) (g : gatts) : Prop := carr _ _ catt p n g.
Definition vals {T V} (g : garr T V) : list V := gvals _ _ g.
Definition view {T V} (g : garr T V) : option (list V) := gview _ _ g.

Definition addrs_drop U E p n g : caddrs p n g -> tri U E (faddrs g) (drop_addrs p n) (fun _ G => G = []) :=
  tri_drop _ _ AddrObj faddr caddr get_addr addr_destroy get_addr_spec tri_addr_destroy U E p n g.
Definition atts_drop U E p n g : catts p n g -> tri U E (fatts g) (drop_atts p n) (fun _ G => G = []) :=
  tri_drop _ _ AttObj fatt catt get_att att_destroy get_att_spec tri_att_destroy U E p n g.
Definition addrs_clone := tri_clone _ _ AddrObj faddr caddr waddr get_addr addr_copy addr_destroy
  get_addr_spec tri_addr_copy tri_addr_destroy.
Definition atts_clone := tri_clone _ _ AttObj fatt catt watt get_att att_copy att_destroy
  get_att_spec tri_att_copy tri_att_destroy.
Definition addrs_replace := tri_replace _ _ AddrObj faddr caddr waddr get_addr addr_copy addr_destroy
  get_addr_spec tri_addr_copy tri_addr_destroy.
Definition atts_replace := tri_replace _ _ AttObj fatt catt watt get_att att_copy att_destroy
  get_att_spec tri_att_copy tri_att_destroy.
Definition addrs_build := tri_build _ _ AddrObj faddr caddr waddr get_addr addr_copy addr_destroy
  get_addr_spec tri_addr_copy tri_addr_destroy.
Definition atts_build := tri_build _ _ AttObj fatt catt watt get_att att_copy att_destroy
  get_att_spec tri_att_copy tri_att_destroy.
Definition addrs_show U E p n g : caddrs p n g ->
  tri U E (faddrs g) (read_addrs p n) (fun x G => x = view g /\ G = faddrs g) :=
  tri_show _ _ AddrObj faddr caddr get_addr get_addr_spec read_addr tri_read_addr U E p n g.
Definition atts_show U E p n g : catts p n g ->
  tri U E (fatts g) (read_atts p n) (fun x G => x = view g /\ G = fatts g) :=
  tri_show _ _ AttObj fatt catt get_att get_att_spec read_att tri_read_att U E p n g.

(** ** Message *)

(** The values and arrays behind the pointers of a message. *)
Record gmsg := mkG {
  g_from : vaddr; g_to : gaddrs; g_cc : gaddrs; g_bcc : gaddrs;
  g_subject : option str; g_body : option str; g_atts : gatts }.

Definition fmsg (m : msg_obj) (g : gmsg) : foot :=
  faddr (mo_from m) (g_from g) ++ faddrs (g_to g) ++ faddrs (g_cc g) ++ faddrs (g_bcc g) ++
  ftext (mo_subject m) (g_subject g) ++ ftext (mo_body m) (g_body g) ++ fatts (g_atts g).

Record cmsg (m : msg_obj) (g : gmsg) : Prop := mkCmsg {
  cm_from : caddr (mo_from m) (g_from g);
  cm_to : caddrs (mo_to m) (mo_nto m) (g_to g);
  cm_cc : caddrs (mo_cc m) (mo_ncc m) (g_cc g);
  cm_bcc : caddrs (mo_bcc m) (mo_nbcc m) (g_bcc g);
  cm_subject : ctext (mo_subject m) (g_subject g);
  cm_body : ctext (mo_body m) (g_body g);
  cm_atts : catts (mo_atts m) (mo_natts m) (g_atts g) }.

(** A message whose parts are all there. *)
Definition warr {T V} (wh : V -> Prop) (n : nat) (g : garr T V) : Prop :=
  (n = 0 \/ g <> None) /\ Forall wh (vals g).
Record wmsg (m : msg_obj) (g : gmsg) : Prop := mkWmsg {
  wm_from : waddr (g_from g);
  wm_to : warr waddr (mo_nto m) (g_to g);
  wm_cc : warr waddr (mo_ncc m) (g_cc g);
  wm_bcc : warr waddr (mo_nbcc m) (g_bcc g);
  wm_subject : g_subject g <> None;
  wm_body : g_body g <> None;
  wm_atts : warr watt (mo_natts m) (g_atts g) }.

Lemma tri_msg_destroy : forall U E m g, cmsg m g ->
  tri U E (fmsg m g) (msg_destroy m) (fun _ G => G = []).
Proof.
  intros U E m g C. destruct C. unfold msg_destroy, fmsg.
  tstep tri_del_text. intros _ G ->. tstep tri_del_text. intros _ G ->.
  eapply tri_seq; [ apply addrs_drop; exact cm_to0 | perm | ]. intros _ G ->.
  eapply tri_seq; [ apply addrs_drop; exact cm_cc0 | perm | ]. intros _ G ->.
  eapply tri_seq; [ apply addrs_drop; exact cm_bcc0 | perm | ]. intros _ G ->.
  eapply tri_seq; [ apply atts_drop; exact cm_atts0 | perm | ]. intros _ G ->.
  eapply tri_last; [ eapply tri_addr_destroy; eauto | perm | ].
  intros _ G ->. exists []. split; [ perm | reflexivity ].
Qed.

Lemma tri_read_msg : forall U E m g, cmsg m g ->
  tri U E (fmsg m g) (read_msg m) (fun w G => G = fmsg m g /\
    w = mkView (g_from g) (view (g_to g)) (mo_nto m) (view (g_cc g)) (mo_ncc m)
          (view (g_bcc g)) (mo_nbcc m) (g_subject g) (g_body g) (view (g_atts g)) (mo_natts m)).
Proof.
  intros U E m g C. destruct C. unfold read_msg, fmsg.
  eapply tri_seq; [ eapply tri_read_addr; eauto | perm | ]. intros x G (-> & ->).
  eapply tri_seq; [ eapply addrs_show; exact cm_to0 | perm | ]. intros x G (-> & ->).
  eapply tri_seq; [ eapply addrs_show; exact cm_cc0 | perm | ]. intros x G (-> & ->).
  eapply tri_seq; [ eapply addrs_show; exact cm_bcc0 | perm | ]. intros x G (-> & ->).
  tstep tri_peek. intros x G (-> & ->). tstep tri_peek. intros x G (-> & ->).
  eapply tri_seq; [ eapply atts_show; exact cm_atts0 | perm | ]. intros x G (-> & ->).
  eapply tri_ret; [ | split; reflexivity ]. perm.
Qed.

(** The copy has the same values; arrays without element are null in it. *)
Definition same_vals (g g' : gmsg) : Prop :=
  vals (g_to g') = vals (g_to g) /\ vals (g_cc g') = vals (g_cc g) /\ vals (g_bcc g') = vals (g_bcc g) /\
  g_subject g' = g_subject g /\ g_body g' = g_body g /\ vals (g_atts g') = vals (g_atts g).

Lemma warr_same : forall T V (wh : V -> Prop) n (g g' : garr T V),
  gvals _ _ g' = gvals _ _ g -> Forall wh (gvals _ _ g) -> (n <> 0 -> g' <> None) -> warr wh n g'.
Proof.
  intros T V wh n g g' Ev W Y. split.
  - destruct n; [ now left | right; apply Y; discriminate ].
  - unfold vals. now rewrite Ev.
Qed.

Lemma tri_msg_copy : forall U E m g, cmsg m g -> wmsg m g \/ nulls U ->
  tri U E (fmsg m g) (msg_copy m) (fun m' G => exists g', cmsg m' g' /\ wmsg m g /\ wmsg m' g' /\
     g_from g' = g_from g /\ same_vals g g' /\
     mo_nto m' = mo_nto m /\ mo_ncc m' = mo_ncc m /\ mo_nbcc m' = mo_nbcc m /\ mo_natts m' = mo_natts m /\
     G = fmsg m g ++ fmsg m' g').
Proof.
  intros U E m g C W. destruct C. unfold msg_copy.
  assert (N : forall P : Prop, (wmsg m g -> P) -> P \/ nulls U).
  { intros P X. destruct W as [W | W]; [ left; now apply X | now right ]. }
  unfold fmsg at 1.
  eapply tri_seq; [ eapply tri_addr_copy; [ exact cm_from0 | apply N; apply wm_from ] | perm | ].
  intros f G (Cf & Wf & ->).
  eapply tri_seq; [ eapply tri_text; [ exact cm_subject0 | apply N; apply wm_subject ] | perm | ].
  intros ss G (Es & ->). tstep tri_dup. intros ps G (Cs & ->).
  eapply tri_seq; [ eapply tri_text; [ exact cm_body0 | apply N; apply wm_body ] | perm | ].
  intros bs G (Eb & ->). tstep tri_dup. intros pb G (Cb & ->).
  eapply tri_seq; [ apply (addrs_clone U _ _ _ _ cm_to0); apply N; apply wm_to | unfold faddrs; perm | ].
  intros pt G (gt & Ct & Nt & Vt & Wt & Zt & Yt & ->).
  eapply tri_seq; [ apply (addrs_clone U _ _ _ _ cm_cc0); apply N; apply wm_cc | perm | ].
  intros pc G (gc & Cc & Nc & Vc & Wc & Zc & Yc & ->).
  eapply tri_seq; [ apply (addrs_clone U _ _ _ _ cm_bcc0); apply N; apply wm_bcc | perm | ].
  intros pd G (gd & Cd & Nd & Vd & Wd & Zd & Yd & ->).
  eapply tri_seq; [ apply (atts_clone U _ _ _ _ cm_atts0); apply N; apply wm_atts | unfold fatts; perm | ].
  intros pa G (ga & Ca & Na & Va & Wa & Za & Ya & ->).
  eapply tri_ret; [ | exists (mkG (g_from g) gt gc gd (g_subject g) (g_body g) ga) ].
  2:{ split; [ | split; [ | split; [ | split; [ reflexivity | split; [ now repeat split | ] ] ] ] ].
      - constructor; cbn [g_from g_to g_cc g_bcc g_subject g_body g_atts mo_from mo_to mo_nto mo_cc mo_ncc mo_bcc
          mo_nbcc mo_subject mo_body mo_atts mo_natts]; rewrite ?Es, ?Eb; assumption.
      - constructor; try (split; assumption); try assumption; congruence.
      - constructor; cbn [g_from g_to g_cc g_bcc g_subject g_body g_atts mo_from mo_to mo_nto mo_cc mo_ncc mo_bcc
          mo_nbcc mo_subject mo_body mo_atts mo_natts]; try congruence; try assumption;
          eapply warr_same; eassumption.
      - repeat split. }
  unfold fmsg, faddrs, fatts. cbn [mo_from mo_to mo_cc mo_bcc mo_subject mo_body mo_atts
    g_from g_to g_cc g_bcc g_subject g_body g_atts]. rewrite ?Es, ?Eb. perm.
Qed.

(** Copy assignment: the sender of the target stays. *)
Record room (m m2 : msg_obj) : Prop := mkRoom {
  rm_to : mo_nto m2 = 0 -> mo_nto m = 0;
  rm_cc : mo_ncc m2 = 0 -> mo_ncc m = 0;
  rm_bcc : mo_nbcc m2 = 0 -> mo_nbcc m = 0;
  rm_atts : mo_natts m2 = 0 -> mo_natts m = 0 }.

(** No array of the target is non-null without element while the source has
    elements. *)
Definition tidy (p : ptr) (n k : nat) : Prop := n <> 0 \/ p = None \/ k = 0.
Definition tidies (m m2 : msg_obj) : Prop :=
  tidy (mo_to m) (mo_nto m) (mo_nto m2) /\ tidy (mo_cc m) (mo_ncc m) (mo_ncc m2) /\
  tidy (mo_bcc m) (mo_nbcc m) (mo_nbcc m2) /\ tidy (mo_atts m) (mo_natts m) (mo_natts m2).

Definition sound_arrays (m : msg_obj) (g : gmsg) : Prop :=
  (mo_nto m = 0 \/ g_to g <> None) /\ (mo_ncc m = 0 \/ g_cc g <> None) /\
  (mo_nbcc m = 0 \/ g_bcc g <> None) /\ (mo_natts m = 0 \/ g_atts g <> None).

Lemma tri_msg_assign : forall U E m g m2 g2, cmsg m g -> cmsg m2 g2 -> room m m2 ->
  (sound_arrays m g /\ wmsg m2 g2) \/ nulls U ->
  tri U E (fmsg m g ++ fmsg m2 g2) (msg_assign m m2)
    (fun m' G => exists g' L, cmsg m' g' /\ g_from g' = g_from g /\ same_vals g2 g' /\
       mo_nto m' = mo_nto m2 /\ mo_ncc m' = mo_ncc m2 /\ mo_nbcc m' = mo_nbcc m2 /\ mo_natts m' = mo_natts m2 /\
       (tidies m m2 -> L = []) /\ G = (fmsg m' g' ++ L) ++ fmsg m2 g2).
Proof.
  intros U E m g m2 g2 C C2 [R1 R2 R3 R4] W. destruct C, C2. unfold msg_assign.
  assert (N : forall P : Prop, (sound_arrays m g -> wmsg m2 g2 -> P) -> P \/ nulls U).
  { intros P X. destruct W as [(W1 & W2) | W]; [ left; now apply X | now right ]. }
  unfold fmsg at 1 2.
  tstep tri_del_text. intros _ G ->.
  eapply tri_seq; [ eapply tri_text; [ exact cm_subject1 | apply N; intros _; apply wm_subject ] | perm | ].
  intros ss G (Es & ->). tstep tri_dup. intros ps G (Cs & ->).
  tstep tri_del_text. intros _ G ->.
  eapply tri_seq; [ eapply tri_text; [ exact cm_body1 | apply N; intros _; apply wm_body ] | perm | ].
  intros bs G (Eb & ->). tstep tri_dup. intros pb G (Cb & ->).
  eapply tri_seq; [ apply (addrs_replace U _ _ _ _ _ _ _ cm_to0 cm_to1 R1) | unfold faddrs; perm | ].
  { apply N. intros (A1 & A2 & A3 & A4) Wm. split; [ exact A1 | apply (wm_to _ _ Wm) ]. }
  intros pt G (gt & Lt & Ct & Vt & Nt & Yt & Zt & Wt & Kt & ->).
  eapply tri_seq; [ apply (addrs_replace U _ _ _ _ _ _ _ cm_cc0 cm_cc1 R2) | perm | ].
  { apply N. intros (A1 & A2 & A3 & A4) Wm. split; [ exact A2 | apply (wm_cc _ _ Wm) ]. }
  intros pc G (gc & Lc & Cc & Vc & Nc & Yc & Zc & Wc & Kc & ->).
  eapply tri_seq; [ apply (addrs_replace U _ _ _ _ _ _ _ cm_bcc0 cm_bcc1 R3) | perm | ].
  { apply N. intros (A1 & A2 & A3 & A4) Wm. split; [ exact A3 | apply (wm_bcc _ _ Wm) ]. }
  intros pd G (gd & Ld & Cd & Vd & Nd & Yd & Zd & Wd & Kd & ->).
  eapply tri_seq; [ apply (atts_replace U _ _ _ _ _ _ _ cm_atts0 cm_atts1 R4) | unfold fatts; perm | ].
  { apply N. intros (A1 & A2 & A3 & A4) Wm. split; [ exact A4 | apply (wm_atts _ _ Wm) ]. }
  intros pa G (ga & La & Ca & Va & Na & Ya & Za & Wa & Ka & ->).
  eapply tri_ret; [ | exists (mkG (g_from g) gt gc gd (g_subject g2) (g_body g2) ga), (Lt ++ Lc ++ Ld ++ La) ].
  2:{ split; [ | split; [ reflexivity | split; [ now repeat split | ] ] ].
      - constructor; cbn [g_from g_to g_cc g_bcc g_subject g_body g_atts mo_from mo_to mo_nto mo_cc mo_ncc mo_bcc
          mo_nbcc mo_subject mo_body mo_atts mo_natts]; rewrite ?Es, ?Eb; assumption.
      - do 4 (split; [ reflexivity | ]). split; [ | reflexivity ].
        intros (T1 & T2 & T3 & T4). now rewrite (Kt T1), (Kc T2), (Kd T3), (Ka T4). }
  unfold fmsg, faddrs, fatts. cbn [mo_from mo_to mo_cc mo_bcc mo_subject mo_body mo_atts
    g_from g_to g_cc g_bcc g_subject g_body g_atts]. rewrite ?Es, ?Eb. perm.
Qed.

Definition gnull (f : vaddr) : gmsg := mkG f None None None None None None.

Lemma cmsg_null : forall f v, caddr f v -> cmsg (msg_null f) (gnull v).
Proof. intros f v C. constructor; cbn; auto. Qed.

Lemma fmsg_null : forall f v, fmsg (msg_null f) (gnull v) = faddr f v.
Proof. intros. unfold fmsg. cbn. now rewrite app_nil_r. Qed.

Lemma tri_msg_move : forall U E m g, cmsg m g ->
  tri U E (fmsg m g) (msg_move m) (fun mm G =>
    mm = (m, msg_null addr_null) /\ G = fmsg m g).
Proof.
  intros U E m g C. unfold msg_move, addr_move. apply tri_ret_bind.
  eapply tri_ret; [ perm | ]. split; [ now destruct m | reflexivity ].
Qed.

Lemma tri_msg_move_assign : forall U E m g m2 g2, cmsg m g -> cmsg m2 g2 -> waddr (g_from g2) \/ nulls U ->
  tri U E (fmsg m g ++ fmsg m2 g2) (msg_move_assign m m2)
    (fun mm G => exists m', mm = (m', msg_null (mo_from m2)) /\
       cmsg m' g2 /\ waddr (g_from g2) /\
       mo_nto m' = mo_nto m2 /\ mo_ncc m' = mo_ncc m2 /\ mo_nbcc m' = mo_nbcc m2 /\ mo_natts m' = mo_natts m2 /\
       G = fmsg m' g2 ++ fmsg (msg_null (mo_from m2)) (gnull (g_from g2))).
Proof.
  intros U E m g m2 g2 C C2 W. destruct C. unfold msg_move_assign. unfold fmsg at 1.
  tstep tri_del_text. intros _ G ->. tstep tri_del_text. intros _ G ->.
  eapply tri_seq; [ apply addrs_drop; exact cm_to0 | perm | ]. intros _ G ->.
  eapply tri_seq; [ apply addrs_drop; exact cm_cc0 | perm | ]. intros _ G ->.
  eapply tri_seq; [ apply addrs_drop; exact cm_bcc0 | perm | ]. intros _ G ->.
  eapply tri_seq; [ apply atts_drop; exact cm_atts0 | perm | ]. intros _ G ->.
  pose proof (cm_from _ _ C2) as Cf2. unfold fmsg at 1.
  eapply tri_seq; [ apply (tri_addr_assign U _ _ _ _ _ cm_from0 Cf2 W) | perm | ].
  intros f G (Cf & Wf & ->).
  eapply tri_ret; [ | eexists; split; [ reflexivity | ]; split; [ | split; [ exact Wf | ] ] ].
  2:{ destruct C2. constructor; assumption. }
  2:{ do 4 (split; [ reflexivity | ]). reflexivity. }
  rewrite fmsg_null. unfold fmsg. cbn [mo_from mo_to mo_cc mo_bcc mo_subject mo_body mo_atts]. perm.
Qed.
