(** Base definitions shared by the whole model: bytes, byte strings, the
    [std::string] / C-string primitives the library uses, and the possible
    outcomes of running a piece of C++ code.  No proofs here. *)

From Coq Require Import Ascii String List NArith ZArith Bool.
Import ListNotations.

(** A C++ [char] / [unsigned char] is a Coq [ascii] (8 bits).  A [std::string]
    and the memory behind a [char*] are lists of bytes. *)
Definition byte := ascii.
Definition str := list ascii.

(** String literals. *)
Definition B (s : string) : str := list_ascii_of_string s.

Definition NUL : ascii := ascii_of_nat 0.
Definition LF  : ascii := ascii_of_nat 10.
Definition CR  : ascii := ascii_of_nat 13.
Definition CRLF : str := [CR; LF].

(** Numeric value of a byte, 0..255. *)
Definition code (c : ascii) : N := N_of_ascii c.

(** Length as a binary number. *)
Definition slen (s : str) : N := N.of_nat (length s).

(** The C string stored in memory [s]: everything before the first NUL
    (what [strlen], [std::string(const char* )], [strncpy] see). *)
Fixpoint cstr (s : str) : str :=
  match s with
  | [] => []
  | c :: r => if Ascii.eqb c NUL then [] else c :: cstr r
  end.

(** [std::string::operator==]. *)
Fixpoint str_eqb (a b : str) : bool :=
  match a, b with
  | [], [] => true
  | x :: a', y :: b' => Ascii.eqb x y && str_eqb a' b'
  | _, _ => false
  end.

(** Does [s] start with [p]? *)
Fixpoint prefixb (p s : str) : bool :=
  match p, s with
  | [], _ => true
  | x :: p', y :: s' => Ascii.eqb x y && prefixb p' s'
  | _ :: _, [] => false
  end.

(** [std::string::find(p)]: index of the first occurrence, [None] = npos. *)
Fixpoint find_sub (p s : str) : option nat :=
  if prefixb p s then Some 0
  else match s with
       | [] => None
       | _ :: r => match find_sub p r with
                   | Some n => Some (S n)
                   | None => None
                   end
       end.

(** [std::string::rfind(p)]: index of the last occurrence. *)
Fixpoint rfind_sub (p s : str) : option nat :=
  match s with
  | [] => if prefixb p [] then Some 0 else None
  | _ :: r => match rfind_sub p r with
              | Some n => Some (S n)
              | None => if prefixb p s then Some 0 else None
              end
  end.

(** [std::string::substr(pos, n)] for [pos <= size()]. *)
Definition substr (s : str) (pos n : nat) : str := firstn n (skipn pos s).

(** Which null pointer is dereferenced. *)
Inductive pointer : Type :=
| PArg            (* an argument of an API function *)
| PArray          (* an array member of a Message *)
| PLog            (* mCommunicationLog *)
| PServer         (* mServerName *)
| PAuth           (* mAuthOptions *)
| PResp           (* mLastServerResponse *)
.
(** Which array is overrun. *)
Inductive buffer : Type :=
| BufCaller       (* the buffer given to getErrorMessage_r *)
| BufLog          (* mCommunicationLog *)
| BufRecv         (* outbuf, the 1024 byte receive buffer *)
| BufHost         (* sin_addr, the 4 byte IPv4 address *)
| BufEndpoint     (* server_name_and_port, 1024 bytes *)
.

(** Kinds of undefined behaviour the model distinguishes. *)
Inductive ub : Type :=
| UB_NullDeref (p : pointer)      (* strlen/deref of a null pointer *)
| UB_BufferOverflow (b : buffer)  (* write outside an array *)
| UB_IsspaceNegative    (* isspace() called with a negative argument *)
| UB_SignedOverflow     (* overflow of an [int] *)
| UB_FdSet              (* FD_SET with a descriptor >= FD_SETSIZE *)
| UB_DoubleFree         (* deallocating memory that is not allocated *)
| UB_UseAfterFree       (* reading memory that is not allocated *)
| UB_MismatchedDelete   (* new / delete[] or new[] / delete *)
.

(** Result of running C++ code. *)
Inductive outcome (A : Type) : Type :=
| Done (a : A)          (* returned normally *)
| Throw                 (* threw std::invalid_argument *)
| Undef (u : ub)        (* executed undefined behaviour *)
| Blocked               (* waits for an environment result that never comes *)
| Killed                (* process killed by SIGPIPE *)
| Diverge.              (* unbounded recursion *)
Arguments Done {A} a.
Arguments Throw {A}.
Arguments Undef {A} u.
Arguments Blocked {A}.
Arguments Killed {A}.
Arguments Diverge {A}.

Definition obind {A C} (m : outcome A) (k : A -> outcome C) : outcome C :=
  match m with
  | Done a => k a
  | Throw => Throw
  | Undef u => Undef u
  | Blocked => Blocked
  | Killed => Killed
  | Diverge => Diverge
  end.

(** Decimal rendering of an unsigned number ([std::ostream << unsigned],
    [sprintf "%u"]).  Least significant digit first; the fuel is the number
    of binary digits, which is more than the number of decimal digits. *)
Definition digit (n : N) : ascii := ascii_of_N (48 + n).

Fixpoint dec_rev (fuel : nat) (n : N) : str :=
  match fuel with
  | O => []
  | S f => if (n <? 10)%N then [digit n]
           else digit (n mod 10)%N :: dec_rev f (n / 10)%N
  end.

Definition dec_of_N (n : N) : str := rev (dec_rev (S (N.to_nat (N.size n))) n).

(** Types of the C++ implementation: [unsigned int] is 32 bits and [size_t]
    64 bits (LP64, as on every POSIX platform the library targets). *)
Definition u32 (n : N) : N := (n mod 4294967296)%N.
Definition u64 (z : Z) : N := Z.to_N (z mod 18446744073709551616)%Z.
