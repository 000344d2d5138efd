(** Ownership: programs that go wrong. *)

From Coq Require Import Ascii String List NArith ZArith Bool Arith Lia.
From Verif Require Import Base ModelUtil ModelBase64 ModelAddress ModelAttachment ModelMessage ModelHeap SpecHeap ProofHeap9 ProofHeap11.
Import ListNotations.
Open Scope nat_scope.

Definition new_addr : hop := VAddr (ACaller (B "ann@example.org")) (ACaller (B "Ann")).
Definition new_cred_op : hop := VCred (ACaller (B "user")) (ACaller (B "secret")).

(** Message 4 of [start] is assigned a message with another sender. *)
Definition other_sender : list hop :=
  start ++ [VMsg 1 (AArr [0]) (AArr [1]) (AArr [0]) (ACaller (B "Re")) (ACaller (B "Again")) (AArr [2; 2])].

Lemma assign_keeps_sender : exists l p h i j m m2 v2 p' h' m' v',
  along careful l /\ hexec l = (Done p, h) /\ careful p (VAssign i j) /\
  get i p = OMsg m /\ get j p = OMsg m2 /\ fst (read_msg m2 h) = Done v2 /\
  hstep p (VAssign i j) h = (Done p', h') /\ get i p' = OMsg m' /\ fst (read_msg m' h') = Done v' /\
  w_from v' = (Some (B "ann@example.org"), Some (B "Ann")) /\ w_from v2 = (Some (B "bob@example.org"), Some (B "")).
Proof.
  remember (hexec other_sender) as r eqn:Er. vm_compute in Er. destruct r as [[p | | | | | ] h]; try discriminate.
  exists other_sender, p, h, 4, 7. injection Er as -> ->. do 7 eexists.
  split; [ unfold other_sender, start; check | ]. split; [ vm_compute; reflexivity | ].
  split; [ vm_compute; right; repeat split; intros; discriminate | ].
  split; [ reflexivity | ]. split; [ reflexivity | ]. split; [ vm_compute; reflexivity | ].
  split; [ vm_compute; reflexivity | ]. split; [ reflexivity | ]. split; [ vm_compute; reflexivity | ].
  split; reflexivity.
Qed.

Lemma setContentId_leaks : exists l p h, Forall value_op l /\ Forall no_alias l /\
  hexec l = (Done p, h) /\ all_destroyed p /\ h_live h <> [].
Proof.
  exists [VAtt (ACaller (B "a.txt")) (ACaller (B "a")) (ACaller (B "")); VSetContentId 0 (ACaller (B "id")); VDestroy 0].
  do 2 eexists. split; [ repeat constructor | ]. split; [ repeat constructor | ]. split; [ vm_compute; reflexivity | ].
  split; [ now intros [ | [ | i]] | discriminate ].
Qed.

Lemma setUsername_alias : exists l, Forall value_op l /\ fst (hexec l) = Undef UB_UseAfterFree.
Proof. exists [new_cred_op; VSetUsername 0 (AGetter 0 0)]. split; [ repeat constructor | reflexivity ]. Qed.

Lemma assign_double_free : exists l, Forall message_op l /\ fst (hexec l) = Undef UB_DoubleFree.
Proof.
  exists [new_addr;
    VMsg 0 (AArr [0]) (AArr [0]) (ANull 0) (ACaller (B "s")) (ACaller (B "b")) (ANull 0);
    VMsg 0 (AArr [0]) (ANull 0) (ANull 0) (ACaller (B "s")) (ACaller (B "b")) (ANull 0);
    VAssign 1 2; VDestroy 1].
  split; [ repeat constructor | vm_compute; reflexivity ].
Qed.

Lemma null_subject_mismatch : exists l, Forall message_op l /\ fst (hexec l) = Undef UB_MismatchedDelete.
Proof.
  exists [new_addr; VMsg 0 (AArr [0]) (ANull 0) (ANull 0) ANullptr (ACaller (B "b")) (ANull 0); VDestroy 1].
  split; [ repeat constructor | vm_compute; reflexivity ].
Qed.

(** A cpp client with a credential, its copy 2, and a new credential for the
    original. *)
Definition shared_credential : list hop :=
  [VCpp (ACaller (B "mail")); new_cred_op; VSetCredentials 0 (KObject 1); VCopy 0; VSetCredentials 0 (KObject 1)].

Lemma shared_dangling : exists l p h k x, hexec l = (Done p, h) /\ get k p = OCpp x /\
  fst (observe (OCpp x) h) = Undef UB_UseAfterFree.
Proof.
  exists shared_credential. do 2 eexists. exists 2. eexists. split; [ vm_compute; reflexivity | ].
  split; [ reflexivity | vm_compute; reflexivity ].
Qed.
(** The last operation of [shared_credential] concerns client 0 only; before
    it, client 2 shows its credential. *)
Lemma shared_changes : exists l p h o p' h' k s, along careful l /\ hexec l = (Done p, h) /\
  ~ touches o k /\ k < length p /\ hstep p o h = (Done p', h') /\
  fst (observe (get k p) h) = Done s /\ fst (observe (get k p') h') = Undef UB_UseAfterFree.
Proof.
  remember (hexec (firstn 4 shared_credential)) as r eqn:Er. vm_compute in Er.
  destruct r as [[p | | | | | ] h]; try discriminate.
  exists (firstn 4 shared_credential), p, h, (VSetCredentials 0 (KObject 1)). injection Er as -> ->.
  do 2 eexists. exists 2. eexists.
  split; [ unfold shared_credential; cbn [firstn]; check | ]. split; [ vm_compute; reflexivity | ].
  split; [ cbn; discriminate | ]. split; [ cbn; repeat constructor | ].
  split; [ vm_compute; reflexivity | ]. split; vm_compute; reflexivity.
Qed.
Lemma shared_double_free : exists l, fst (hexec l) = Undef UB_DoubleFree /\
  Forall (fun o => match o with VCpp _ | VCred _ _ | VCopy _ | VSetCredentials _ _ => True | _ => False end) l.
Proof. exists (shared_credential ++ [VSetCredentials 2 (KObject 1)]). split; [ vm_compute; reflexivity | repeat constructor ]. Qed.

Lemma setServerName_alias : exists l, fst (hexec l) = Undef UB_UseAfterFree /\
  l = [VBase (ACaller (B "mail")); VSetServer 0 (AGetter 0 0)].
Proof. eexists. split; [ | reflexivity ]. reflexivity. Qed.
Lemma setCredentials_alias : exists l, fst (hexec l) = Undef UB_UseAfterFree /\
  l = [VBase (ACaller (B "mail")); new_cred_op; VSetCredentials 0 (KObject 1); VSetCredentials 0 (KOfClient 0)].
Proof. eexists. split; [ | reflexivity ]. vm_compute. reflexivity. Qed.
Lemma assign_leaks : exists l p h, along careful l /\ hexec l = (Done p, h) /\ all_destroyed p /\ h_live h <> [].
Proof.
  exists [VBase (ACaller (B "mail")); VTalk 0 TStart; VBase (ACaller (B "mail")); VAssign 0 1; VDestroy 0; VDestroy 1].
  do 2 eexists. split; [ check | ]. split; [ vm_compute; reflexivity | ]. split; [ now intros [ | [ | [ | i]]] | discriminate ].
Qed.
(** A server that announces its mechanisms in the second line of its answer. *)
Definition second_line : str := B "250-mail" ++ CRLF ++ B "250-AUTH PLAIN" ++ CRLF ++ B "250 ok" ++ CRLF.
Lemma ehlo_leaks : exists l p h, along careful l /\ hexec l = (Done p, h) /\ all_destroyed p /\ length (h_live h) = 1 /\
  l = [VBase (ACaller (B "mail")); VTalk 0 (TAuth second_line); VDestroy 0].
Proof.
  eexists _, _, _. split; [ | split; [ | split; [ | split; [ | reflexivity ] ] ] ].
  - check.
  - vm_compute. reflexivity.
  - now intros [ | [ | i]].
  - reflexivity.
Qed.
Lemma cpp_leaks : exists l p h, along careful l /\ hexec l = (Done p, h) /\ all_destroyed p /\ h_live h <> [].
Proof.
  exists [VCpp (ACaller (B "mail")); new_cred_op; VSetCredentials 0 (KObject 1); VDestroy 0; VDestroy 1].
  do 2 eexists. split; [ check | ]. split; [ vm_compute; reflexivity | ]. split; [ now intros [ | [ | [ | i]]] | discriminate ].
Qed.

(** Programs that keep the rules: of value objects only, of messages, and one
    that uses everything and destroys it. *)
Definition values_tour : list hop :=
  firstn 4 start ++
  [ VCopy 0; VMove 1; VAssign 0 5; VMoveAssign 4 0; VCopy 2; VAssign 2 6; VMove 3; VSetUsername 7 (ACaller (B "other"));
    VSetPassword 7 (AGetter 7 0); VCopy 7; VMoveAssign 3 7; VSetMethod 8 kPlain; VRead 8; VRead 3;
    VDestroy 0; VDestroy 1; VDestroy 2; VDestroy 3; VDestroy 4; VDestroy 5; VDestroy 6; VDestroy 7; VDestroy 8 ].
Definition messages_tour : list hop :=
  firstn 5 start ++
  [ VCopy 4; VMove 4; VAssign 6 5; VMoveAssign 4 5; VRead 4; VDestroy 0; VDestroy 1; VRead 4; VRead 6 ].
Definition whole_life : list hop :=
  start ++
  [ VSetCredentials 5 (KObject 3); VTalk 5 TStart; VTalk 5 (TLog true (B "log")); VTalk 5 (TAuth (B "250-AUTH PLAIN" ++ CRLF ++ B "250 ok" ++ CRLF));
    VSetUsername 3 (ACaller (B "other")); VSetServer 5 (AGetter 4 0); VCopy 4; VCopy 5; VCopy 6; VMove 4; VAssign 10 7;
    VMoveAssign 4 7; VMoveAssign 8 5; VRead 8; VAssign 9 6 ] ++ map VDestroy (seq 0 11).

Lemma whole_life_careful : along careful whole_life.
Proof. unfold whole_life, start. check. Qed.
Lemma whole_life_tidy : along tidy_op whole_life.
Proof.
  unfold whole_life, start. apply checked_along; vm_compute.
  repeat match goal with |- _ /\ _ => split | |- True => exact Logic.I | |- _ -> False => intros (X & Y & Z); discriminate | |- _ = _ => reflexivity end.
  all: try (intros (X & Y & Z); first [ discriminate X | now apply Y | now apply Z ]).
  all: try (left; left; eexists; reflexivity).
Qed.
Lemma messages_tour_careful : along careful messages_tour.
Proof. unfold messages_tour, start. cbn [firstn]. check. Qed.
