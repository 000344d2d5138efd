(** Ownership: witness programs. *)

From Coq Require Import Ascii String List NArith ZArith Bool Arith Lia.
From Verif Require Import Base ModelUtil ModelBase64 ModelAddress ModelAttachment ModelMessage ModelHeap SpecHeap.
Import ListNotations.
Open Scope nat_scope.

(** Checking a condition along a given program. *)
Fixpoint checked (C : pool -> hop -> Prop) (l : list hop) (p : pool) (h : heap) : Prop :=
  match l with
  | [] => True
  | o :: r => C p o /\
      match hstep p o h with
      | (Done p', h') => checked C r p' h'
      | (Throw, h') => checked C r (if is_ctor o then p ++ [OGone] else p) h'
      | _ => True
      end
  end.

Lemma checked_split : forall C l1 o l2 p h p' h', checked C (l1 ++ o :: l2) p h -> hrun l1 p h = (Done p', h') -> C p' o.
Proof.
  intros C l1. induction l1 as [ | x r IH]; intros o l2 p h p' h' K E; cbn in *.
  - injection E as <- <-. exact (proj1 K).
  - destruct K as (_ & K). destruct (hstep p x h) as [[p1 | | | | | ] h1]; try easy; eapply IH; eassumption.
Qed.

Lemma checked_along : forall C l, checked C l [] empty_heap -> along C l.
Proof. intros C l K l1 o l2 p h -> E. exact (checked_split C l1 o l2 [] empty_heap p h K E). Qed.

(** A program with every kind of object: addresses 0 and 1, attachment 2,
    credential 3, message 4, client 5, cpp client 6. *)
Definition start : list hop :=
  [ VAddr (ACaller (B "ann@example.org")) (ACaller (B "Ann"));
    VAddr (ACaller (B "bob@example.org")) (ACaller (B ""));
    VAtt (ACaller (B "/tmp/a.txt")) (ACaller (B "a.txt")) (ACaller (B ""));
    VCred3 (ACaller (B "user")) (ACaller (B "secret")) kLogin;
    VMsg 0 (AArr [1; 0]) (AArr [0]) (ANull 0) (ACaller (B "Hello")) (ACaller (B "Text")) (AArr [2]);
    VBase (ACaller (B "mail.example.org"));
    VCpp (ACaller (B "mail.example.org")) ].

(** Most operations, on all kinds of objects: copies 7 (message), 8 (client),
    9 (cpp client) and a moved message 10. *)
Definition tour : list hop :=
  start ++
  [ VSetCredentials 5 (KObject 3); VTalk 5 TStart; VTalk 5 (TLog true (B "log")); VTalk 5 (TAuth (B "250-AUTH PLAIN" ++ CRLF ++ B "250 ok" ++ CRLF));
    VSetCredentials 6 (KObject 3); VSetUsername 3 (ACaller (B "other")); VSetServer 5 (AGetter 4 0);
    VCopy 4; VCopy 5; VCopy 6; VMove 4; VAssign 10 7; VMoveAssign 4 7; VAssign 8 5;
    VSetCredentials 5 (KOfClient 6); VRead 4; VRead 5; VRead 6; VRead 9 ].

Ltac check :=
  apply checked_along; vm_compute;
  repeat match goal with
         | |- _ /\ _ => split
         | |- True => exact Logic.I
         end;
  try discriminate; try (intros N; now destruct N);
  try (right; repeat split; discriminate || (intros; discriminate)).

Lemma tour_careful : along careful tour.
Proof. unfold tour, start. check. Qed.
