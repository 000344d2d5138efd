(** Model of src/base64.cpp. *)

From Coq Require Import Ascii String List NArith ZArith Bool.
From Verif Require Import Base.
Import ListNotations.
Open Scope N_scope.

(** base64.cpp:33-36 [base64_chars]. *)
Definition base64_chars : str :=
  B "ABCDEFGHIJKLMNOPQRSTUVWXYZabcdefghijklmnopqrstuvwxyz0123456789+/".

(** base64_chars[k] for a 6-bit index. *)
Definition b64char (k : N) : ascii := nth (N.to_nat k) base64_chars NUL.

(** base64.cpp:39-41 [is_base64]. *)
Definition is_base64 (c : ascii) : bool :=
  let n := code c in
  ((48 <=? n) && (n <=? 57)) || ((65 <=? n) && (n <=? 90)) ||
  ((97 <=? n) && (n <=? 122)) || (n =? 43) || (n =? 47).

(** base64.cpp:53-56 (and 75-78): the four 6-bit indices of a 3-byte group. *)
Definition idx0 (a : ascii) : N := N.shiftr (N.land (code a) 0xfc) 2.
Definition idx1 (a b : ascii) : N :=
  N.shiftl (N.land (code a) 0x03) 4 + N.shiftr (N.land (code b) 0xf0) 4.
Definition idx2 (b c : ascii) : N :=
  N.shiftl (N.land (code b) 0x0f) 2 + N.shiftr (N.land (code c) 0xc0) 6.
Definition idx3 (c : ascii) : N := N.land (code c) 0x3f.

Definition enc_group (a b c : ascii) : str :=
  [b64char (idx0 a); b64char (idx1 a b); b64char (idx2 b c); b64char (idx3 c)].

(** base64.cpp:71-86: the incomplete last group of [i] bytes. *)
Definition enc_tail (i : nat) (a b : ascii) : str :=
  match i with
  | O => []
  | S O => [b64char (idx0 a); b64char (idx1 a NUL)] ++ B "=="
  | _ => [b64char (idx0 a); b64char (idx1 a b); b64char (idx2 b NUL)] ++ B "="
  end.

(** base64.cpp:50-69: the loop.  [i] is the number of bytes pending in
    char_array_3, [a] and [b] its first two cells, [out_len] the counter of
    output characters (a size_t: no input fits in memory that would make it
    wrap around, so the wrap-around is not modelled). The result is what is
    appended to [ret] from here on, the tail of lines 71-86 included. *)
Fixpoint enc_loop (bs : str) (i : nat) (a b : ascii) (out_len : N) : str :=
  match bs with
  | [] => enc_tail i a b
  | x :: r =>
      match i with
      | O => enc_loop r 1 x b out_len
      | S O => enc_loop r 2 a x out_len
      | _ =>
          let out_len' := out_len + 4 in
          enc_group a b x ++
          (if out_len' mod (64 * 1024) =? 0 then CRLF else []) ++
          enc_loop r 0 a b out_len'
      end
  end.

(** base64.cpp:43-90 [Base64::Encode]. *)
Definition Encode (bs : str) : str := enc_loop bs 0 NUL NUL 0.

(** [static_cast<unsigned char>(base64_chars.find(c))], npos becomes 255
    (base64.cpp:103, 120). *)
Definition b64find (c : ascii) : N :=
  match find_sub [c] base64_chars with
  | Some k => N.of_nat k
  | None => 255
  end.

(** Store into an [unsigned char]. *)
Definition uchar (n : N) : ascii := ascii_of_N (n mod 256).

(** base64.cpp:105-107 (and 122-124). *)
Definition dec0 (w x : N) : ascii := uchar (N.shiftl w 2 + N.shiftr (N.land x 0x30) 4).
Definition dec1 (x y : N) : ascii := uchar (N.shiftl (N.land x 0xf) 4 + N.shiftr (N.land y 0x3c) 2).
Definition dec2 (y z : N) : ascii := uchar (N.shiftl (N.land y 0x3) 6 + z).

(** base64.cpp:115-127: [arr] are the [i] pending characters. *)
Definition dec_tail (arr : str) : str :=
  match arr with
  | [] => []
  | [_] => []                                       (* j < i - 1 = 0 *)
  | [w; x] => [dec0 (b64find w) (b64find x)]
  | w :: x :: y :: _ => [dec0 (b64find w) (b64find x); dec1 (b64find x) (b64find y)]
  end.

Definition INT_MAX : Z := 2147483647.

(** base64.cpp:99-113: the loop; [in_] is the [int] index of the current
    character, whose increment overflows after INT_MAX. *)
Fixpoint dec_loop (s : str) (arr : str) (in_ : Z) : outcome str :=
  match s with
  | [] => Done (dec_tail arr)
  | c :: r =>
      if negb (Ascii.eqb c "="%char) && is_base64 c then
        if (in_ =? INT_MAX)%Z then Undef UB_SignedOverflow
        else match arr with
             | [w; x; y] =>
                 obind (dec_loop r [] (in_ + 1)%Z) (fun rest =>
                   Done ([dec0 (b64find w) (b64find x);
                          dec1 (b64find x) (b64find y);
                          dec2 (b64find y) (b64find c)] ++ rest))
             | _ => dec_loop r (arr ++ [c]) (in_ + 1)%Z
             end
      else Done (dec_tail arr)
  end.

(** base64.cpp:92-130 [Base64::Decode]. *)
Definition Decode (s : str) : outcome str := dec_loop s [] 0%Z.
