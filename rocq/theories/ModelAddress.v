(** Model of src/messageaddress.cpp (values; ownership is in ModelHeap.v). *)

From Coq Require Import Ascii String List NArith ZArith Bool.
From Verif Require Import Base ModelUtil.
Import ListNotations.
Open Scope N_scope.

(** Regular expressions over bytes: the subset of ECMAScript used by the
    pattern of messageaddress.cpp:120. *)
Inductive regex : Type :=
| REmpty                              (* matches nothing *)
| REps                                (* matches the empty string *)
| RSet (p : ascii -> bool)            (* one character of a class *)
| RCat (a b : regex)
| RAlt (a b : regex)
| RStar (a : regex).

Definition RPlus (a : regex) : regex := RCat a (RStar a).
(** [x{2,4}]. *)
Definition RRep24 (a : regex) : regex :=
  RCat a (RCat a (RAlt REps (RCat a (RAlt REps a)))).

(** Decision procedure by Brzozowski derivatives.  [std::regex_match] explores
    all alternatives by backtracking, so it succeeds exactly when the whole
    text belongs to the language; the time and stack it takes are not
    modelled. *)
Fixpoint nullable (r : regex) : bool :=
  match r with
  | REmpty => false
  | REps => true
  | RSet _ => false
  | RCat a b => nullable a && nullable b
  | RAlt a b => nullable a || nullable b
  | RStar _ => true
  end.

Fixpoint deriv (c : ascii) (r : regex) : regex :=
  match r with
  | REmpty => REmpty
  | REps => REmpty
  | RSet p => if p c then REps else REmpty
  | RCat a b =>
      if nullable a then RAlt (RCat (deriv c a) b) (deriv c b)
      else RCat (deriv c a) b
  | RAlt a b => RAlt (deriv c a) (deriv c b)
  | RStar a => RCat (deriv c a) (RStar a)
  end.

Fixpoint regex_match (r : regex) (s : str) : bool :=
  match s with
  | [] => nullable r
  | c :: s' => regex_match (deriv c r) s'
  end.

(** Character classes of the pattern of messageaddress.cpp:120. *)
Definition is_lower (c : ascii) : bool := (97 <=? code c) && (code c <=? 122).
Definition is_digit (c : ascii) : bool := (48 <=? code c) && (code c <=? 57).
(** [[_a-z0-9-]] *)
Definition cls_local (c : ascii) : bool :=
  is_lower c || is_digit c || Ascii.eqb c "_"%char || Ascii.eqb c "-"%char.
(** [[a-z0-9-]] *)
Definition cls_domain (c : ascii) : bool :=
  is_lower c || is_digit c || Ascii.eqb c "-"%char.
(** ECMAScript [.]: everything but the line terminators LF and CR. *)
Definition cls_dot (c : ascii) : bool :=
  negb (Ascii.eqb c LF || Ascii.eqb c CR).

(** messageaddress.cpp:120
    [^[_a-z0-9-]+(.[_a-z0-9-]+)*@[a-z0-9-]+(.[a-z0-9-]+)*(.[a-z]{2,4})$];
    the anchors are implied by regex_match. *)
Definition email_pattern : regex :=
  RCat (RPlus (RSet cls_local))
 (RCat (RStar (RCat (RSet cls_dot) (RPlus (RSet cls_local))))
 (RCat (RSet (Ascii.eqb "@"%char))
 (RCat (RPlus (RSet cls_domain))
 (RCat (RStar (RCat (RSet cls_dot) (RPlus (RSet cls_domain))))
       (RCat (RSet cls_dot) (RRep24 (RSet is_lower))))))).

(** messageaddress.cpp:119-122 [isEmailAddressValid]. *)
Definition isEmailAddressValid (s : str) : bool :=
  regex_match email_pattern (toLower s).

(** The value of a MessageAddress (messageaddress.h: mEmailAddress,
    mDisplayName). *)
Record address := mkAddr { a_email : str; a_name : str }.

(** messageaddress.cpp:10-31, constructor.  Null arguments are undefined
    behaviour ([std::string(nullptr)], [strlen(nullptr)]); the display name is
    only read after the address was accepted. *)
Definition address_new (email name : option str) : outcome address :=
  match email with
  | None => Undef (UB_NullDeref PArg)
  | Some e0 =>
      let e := cstr e0 in
      obind (match e with
             | [] => Done true
             | _ => obind (trim e) (fun t => Done (match t with [] => true | _ => false end))
             end) (fun blank =>
      if blank then Throw
      else if negb (isEmailAddressValid e) then Throw
      else match name with
           | None => Undef (UB_NullDeref PArg)
           | Some n0 => Done (mkAddr e (cstr n0))
           end)
  end.

(** messageaddress.cpp:95-98 [operator==]. *)
Definition address_eqb (a b : address) : bool :=
  str_eqb (a_email a) (a_email b) && str_eqb (a_name a) (a_name b).

(** messageaddress.cpp:100-109 [operator std::string]; the same rendering is
    written out for the sender in smtpclientbase.cpp:908-914. *)
Definition address_str (a : address) : str :=
  match a_name a with
  | [] => a_email a
  | _ => a_name a ++ B " <" ++ a_email a ++ B ">"
  end.

(** smtpclientbase.cpp:1143-1154 [generateHeaderAddressValues]: the loop with
    [index] telling whether a separator is needed. *)
Fixpoint header_addresses_loop (index : nat) (l : list address) : str :=
  match l with
  | [] => []
  | a :: r => (match index with O => [] | _ => B ", " end)
              ++ address_str a ++ header_addresses_loop (S index) r
  end.
Definition generateHeaderAddressValues (l : list address) : str :=
  header_addresses_loop 0 l.
