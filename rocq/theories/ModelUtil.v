(** Model of src/stringutils.cpp. *)

From Coq Require Import Ascii String List NArith ZArith Bool.
From Verif Require Import Base.
Import ListNotations.
Open Scope N_scope.

(** [isspace(ch)] in the C locale: space, \t \n \v \f \r.
    The caller passes [int ch] converted from a (signed) [char]
    (stringutils.cpp:11,20), so bytes >= 128 are passed as negative numbers,
    for which the C standard leaves isspace undefined: [None]. *)
Definition isspace_char (c : ascii) : option bool :=
  if 128 <=? code c then None
  else Some ((code c =? 32) || ((9 <=? code c) && (code c <=? 13))).

(** stringutils.cpp:9-15 [StringUtils::trimLeft]: find_if from the left. *)
Fixpoint trimLeft (s : str) : outcome str :=
  match s with
  | [] => Done []
  | c :: r => match isspace_char c with
              | None => Undef UB_IsspaceNegative
              | Some true => trimLeft r
              | Some false => Done s
              end
  end.

(** stringutils.cpp:18-24 [StringUtils::trimRight]: the same scan over the
    reverse iterators. *)
Definition trimRight (s : str) : outcome str :=
  obind (trimLeft (rev s)) (fun r => Done (rev r)).

(** stringutils.cpp:27-32 [StringUtils::trim]. *)
Definition trim (s : str) : outcome str :=
  obind (trimLeft s) trimRight.

(** stringutils.cpp:34-39 [StringUtils::toLower], C locale. *)
Definition lower_char (c : ascii) : ascii :=
  if (65 <=? code c) && (code c <=? 90) then ascii_of_N (code c + 32) else c.
Definition toLower (s : str) : str := map lower_char s.

(** stringutils.cpp:41-46 [StringUtils::toUpper], C locale. *)
Definition upper_char (c : ascii) : ascii :=
  if (97 <=? code c) && (code c <=? 122) then ascii_of_N (code c - 32) else c.
Definition toUpper (s : str) : str := map upper_char s.

(** The recurring validation
    [p == nullptr || strcmp(p,"") == 0 || trim(p).empty()]
    (credential.cpp:13-14 and 125-126, smtpclientbase.cpp:56-57 and 259-260).
    [None] is a null pointer.  The result is [true] when the text is refused. *)
Definition null_or_blank (p : option str) : outcome bool :=
  match p with
  | None => Done true
  | Some s =>
      match cstr s with
      | [] => Done true
      | _ => obind (trim (cstr s)) (fun t => Done (match t with [] => true | _ => false end))
      end
  end.
