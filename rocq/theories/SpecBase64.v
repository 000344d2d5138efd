(** What base64 is (RFC 4648, RFC 2045), written at the level of bits and
    independently of the code of src/base64.cpp. *)

From Coq Require Import Ascii String List NArith ZArith Bool.
From Verif Require Import Base.
Import ListNotations.

(** The bits of a byte, most significant first. *)
Definition bits8 (c : ascii) : list bool :=
  match c with Ascii b0 b1 b2 b3 b4 b5 b6 b7 => [b7; b6; b5; b4; b3; b2; b1; b0] end.
Definition bits (s : str) : list bool := flat_map bits8 s.

(** Cut a bit sequence into groups of six, filling the last one with zeros. *)
Fixpoint sextets (l : list bool) : list (list bool) :=
  match l with
  | [] => []
  | a :: b :: c :: d :: e :: f :: r => [a; b; c; d; e; f] :: sextets r
  | _ => [firstn 6 (l ++ repeat false 5)]
  end.

(** The number a bit group denotes. *)
Fixpoint bits_value (acc : nat) (l : list bool) : nat :=
  match l with
  | [] => acc
  | b :: r => bits_value (2 * acc + (if b then 1 else 0)) r
  end.

(** RFC 4648, table 1. *)
Definition alphabet : str :=
  B "ABCDEFGHIJKLMNOPQRSTUVWXYZabcdefghijklmnopqrstuvwxyz0123456789+/".
Definition sextet_char (l : list bool) : ascii := nth (bits_value 0 l) alphabet NUL.

Definition PAD : ascii := "="%char.

(** RFC 4648, section 4: the characters of the groups of six bits, padded to a
    multiple of four characters. *)
Definition rfc4648 (s : str) : str :=
  let cs := map sextet_char (sextets (bits s)) in
  cs ++ repeat PAD ((4 - length cs mod 4) mod 4).

(** The decoder of RFC 2045: line breaks are skipped, the rest must be a
    multiple of four characters, at most two '=' at the end, everything else in
    the alphabet; the bits of the characters are regrouped into bytes. *)
Definition is_linebreak (c : ascii) : bool := Ascii.eqb c CR || Ascii.eqb c LF.

Fixpoint index_of (c : ascii) (l : str) (k : nat) : option nat :=
  match l with
  | [] => None
  | x :: r => if Ascii.eqb x c then Some k else index_of c r (S k)
  end.

(** The six bits of a number below 64, most significant first. *)
Definition bits6 (n : nat) : list bool :=
  map (fun i => Nat.odd (n / 2 ^ i)) [5; 4; 3; 2; 1; 0].

Definition char_bits (c : ascii) : option (list bool) :=
  option_map bits6 (index_of c alphabet 0).

Fixpoint chars_bits (s : str) : option (list bool) :=
  match s with
  | [] => Some []
  | c :: r => match char_bits c, chars_bits r with
              | Some x, Some y => Some (x ++ y)
              | _, _ => None
              end
  end.

Fixpoint bytes_of_bits (l : list bool) : str :=
  match l with
  | b7 :: b6 :: b5 :: b4 :: b3 :: b2 :: b1 :: b0 :: r =>
      Ascii b0 b1 b2 b3 b4 b5 b6 b7 :: bytes_of_bits r
  | _ => []
  end.

(** Remove up to [n] '=' from the end. *)
Fixpoint strip_pad (n : nat) (rs : str) : str :=
  match n, rs with
  | S k, c :: r => if Ascii.eqb c PAD then strip_pad k r else rs
  | _, _ => rs
  end.

Definition mime_decode (s : str) : option str :=
  let t := filter (fun c => negb (is_linebreak c)) s in
  if Nat.eqb (length t mod 4) 0
  then option_map bytes_of_bits (chars_bits (rev (strip_pad 2 (rev t))))
  else None.

(** [s] with a CRLF after every character whose position (counted from 1,
    starting after [k] characters) is a multiple of [w]. *)
Fixpoint broken_lines (w k : N) (s : str) : str :=
  match s with
  | [] => []
  | c :: r => c :: (if N.eqb ((k + 1) mod w) 0 then CRLF else []) ++ broken_lines w (k + 1)%N r
  end.

(** Is [c] in the alphabet? *)
Definition in_alphabet (c : ascii) : bool :=
  match index_of c alphabet 0 with Some _ => true | None => false end.

(** The leading characters in the alphabet. *)
Fixpoint leading (s : str) : str :=
  match s with
  | c :: r => if in_alphabet c then c :: leading r else []
  | [] => []
  end.

(** The length of the longest line, lines being separated by line breaks. *)
Fixpoint longest_line (cur : N) (s : str) : N :=
  match s with
  | [] => cur
  | c :: r => if is_linebreak c then N.max cur (longest_line 0 r)
              else longest_line (cur + 1)%N r
  end.

(** CR and LF occur only as the pair CRLF. *)
Fixpoint crlf_only (s : str) : bool :=
  match s with
  | [] => true
  | c :: r => if Ascii.eqb c CR
              then match r with d :: r' => Ascii.eqb d LF && crlf_only r' | [] => false end
              else negb (Ascii.eqb c LF) && crlf_only r
  end.

