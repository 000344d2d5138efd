(** Which e-mail addresses are accepted, described directly on the characters,
    and how address lists are rendered. *)

From Coq Require Import Ascii String List NArith ZArith Bool.
From Verif Require Import Base ModelAddress SpecText.
Import ListNotations.

Definition letters : str := upper_letters ++ lower_letters.
Definition digits : str := B "0123456789".
Definition local_chars : str := letters ++ digits ++ B "_-".
Definition domain_chars : str := letters ++ digits ++ B "-".

Definition not_linebreak (c : ascii) : Prop := c <> CR /\ c <> LF.

(** Words over [W] separated by single arbitrary characters: begins and ends
    with a character of [W], has no line break, and of any two neighbours one
    is in [W]. *)
Definition words (W s : str) : Prop :=
  s <> [] /\ begins (fun c => In c W) s /\ ends (fun c => In c W) s /\
  Forall not_linebreak s /\
  forall a x y b, s = a ++ x :: y :: b -> In x W \/ In y W.

(** local part, '@', domain, any separator, top level domain of 2 to 4
    letters. *)
Definition valid_address (s : str) : Prop :=
  exists l d c t, s = l ++ "@"%char :: d ++ c :: t /\
    words local_chars l /\ words domain_chars d /\ not_linebreak c /\
    (2 <= length t <= 4)%nat /\ Forall (fun x => In x letters) t.

(** One protocol line: no CR, LF or NUL before the final CRLF. *)
Definition one_line (s : str) : Prop :=
  exists b, s = b ++ CRLF /\ ~ In CR b /\ ~ In LF b /\ ~ In NUL b.

(** Rendering of an address in a header, and of a list. *)
Definition rendered (a : address) (s : str) : Prop :=
  (a_name a = [] /\ s = a_email a) \/
  (a_name a <> [] /\ s = a_name a ++ B " <" ++ a_email a ++ B ">").

Fixpoint join (sep : str) (l : list str) : str :=
  match l with
  | [] => []
  | [x] => x
  | x :: r => x ++ sep ++ join sep r
  end.
