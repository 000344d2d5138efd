(** Model of the memory that is not held by a message or a client: the
    ErrorResolver class (src/errorresolver.cpp), the texts that functions return
    in freshly allocated memory (src/smtpclientbase.cpp, src/attachment.cpp), and
    what src/cpp does with such texts. *)

From Coq Require Import Ascii String List NArith ZArith Bool Arith.
From Verif Require Import Base ModelUtil ModelBase64 ModelErrors ModelAttachment ModelMessage ModelHeap.
Import ListNotations.
Open Scope nat_scope.

(** ** ErrorResolver *)

(** errorresolver.h: mErrorCode, mErrorMessage. *)
Record resolver := mkR { r_code : Z; r_msg : ptr }.

(** errorresolver.cpp:14-170, constructor. *)
Definition resolver_new (c : Z) : H resolver :=
  p <~ h_dup (error_message c) ;;
  hret (mkR c p).

(** errorresolver.cpp:172-175, destructor. *)
Definition resolver_destroy (r : resolver) : H unit := h_del Many (r_msg r).

(** errorresolver.cpp:178-184, copy constructor. *)
Definition resolver_copy (other : resolver) : H resolver :=
  s <~ h_text PArg (r_msg other) ;;
  p <~ h_dup s ;;
  hret (mkR (r_code other) p).

(** errorresolver.cpp:187-197, assignment to another object. *)
Definition resolver_assign (this other : resolver) : H resolver :=
  h_del Many (r_msg this) ;;~
  s <~ h_text PArg (r_msg other) ;;
  p <~ h_dup s ;;
  hret (mkR (r_code other) p).

(** errorresolver.cpp:200-207, move constructor: the new object and the source
    afterwards. *)
Definition resolver_move (other : resolver) : H (resolver * resolver) :=
  hret (other, mkR 0 None).

(** errorresolver.cpp:210-222, move assignment from another object. *)
Definition resolver_move_assign (this other : resolver) : H (resolver * resolver) :=
  h_del Many (r_msg this) ;;~
  hret (other, mkR 0 None).

(** ** Texts returned in new memory *)

(** smtpclientbase.cpp:315-323 [getErrorMessage]: the local ErrorResolver is
    destroyed on return. *)
Definition new_error_message (c : Z) : H ptr :=
  r <~ resolver_new c ;;
  s <~ h_text PArg (r_msg r) ;;
  p <~ h_dup s ;;
  resolver_destroy r ;;~
  hret p.

(** smtpclientbase.cpp:325-342 [getErrorMessage_r]. *)
Definition fill_error_message (c : Z) (buf : option str) (maxLength : N) : H (Z * option str) :=
  r <~ resolver_new c ;;
  v <~ hlift (getErrorMessage_r c buf maxLength) ;;
  resolver_destroy r ;;~
  hret v.

(** attachment.cpp:132-153 [getBase64EncodedFile]. *)
Definition new_base64_file (fs : filesystem) (a : attachment) : H ptr :=
  match getBase64EncodedFile fs a with
  | None => hret None
  | Some s => h_dup (cstr s)
  end.

(** smtpclientbase.cpp:1048-1057: the lines before the file. *)
Definition attachment_head (a : attachment) : str :=
  CRLF ++ B "--sep" ++ CRLF ++
  B "Content-Type: " ++ getMimeType a ++ B "; file=""" ++ at_name a ++ B """" ++ CRLF ++
  (match at_cid a with
   | [] =>
       B "Content-Disposition: Inline; filename=""" ++ at_name a ++ B """" ++ CRLF
   | cid =>
       B "X-Attachment-Id: " ++ cid ++ CRLF ++
       B "Content-ID: <" ++ cid ++ B ">" ++ CRLF ++
       B "Content-Disposition: attachment; filename=""" ++ at_name a ++ B """" ++ CRLF
   end) ++
  B "Content-Transfer-Encoding: base64" ++ CRLF ++ CRLF.

(** smtpclientbase.cpp:1058-1062: the file, whose memory is freed. *)
Definition attachment_file (fs : filesystem) (a : attachment) : H str :=
  p <~ new_base64_file fs a ;;
  match p with
  | None => hret []
  | Some _ =>
      s <~ h_text PArg p ;;
      h_del Many p ;;~
      hret s
  end.

(** smtpclientbase.cpp:1045-1066 [createAttachmentsText]. *)
Fixpoint attachments_heap (fs : filesystem) (l : list attachment) (retval : str) : H str :=
  match l with
  | [] => hret (retval ++ CRLF ++ B "--sep--")
  | a :: r =>
      s <~ attachment_file fs a ;;
      attachments_heap fs r (retval ++ attachment_head a ++ s)
  end.

(** cpp/smtpclient.cpp:61-63, cpp/forcedsecuresmtpclient.cpp:69-71,
    cpp/opportunisticsecuresmtpclient.cpp:69-71: the std::string is built from
    the returned pointer, which is then dropped. *)
Definition cpp_error_message (c : Z) : H str :=
  p <~ new_error_message c ;;
  h_text PArg p.

(** cpp/smtpclient.cpp:65-72, cpp/forcedsecuresmtpclient.cpp:73-81,
    cpp/opportunisticsecuresmtpclient.cpp:73-81: the 1024 bytes ([junk] is their
    content) are not freed. *)
Definition cpp_fill_error_message (c : Z) (junk : str) : H (Z * str) :=
  p <~ h_new Many (Text (cstr junk)) ;;
  v <~ fill_error_message c (Some junk) 1024 ;;
  h_put PArg p (Text (match snd v with Some b => cstr b | None => [] end)) ;;~
  s <~ h_text PArg p ;;
  hret (fst v, s).

(** cpp/attachment.cpp:24-27: the pointer is dropped. *)
Definition cpp_base64_file (fs : filesystem) (a : attachment) : H str :=
  p <~ new_base64_file fs a ;;
  match p with
  | None => hret []
  | Some _ => h_text PArg p
  end.

(** ** Programs *)

(** Operations of a program.  Objects and returned pointers are numbered in the
    order of their creation. *)
Inductive bop :=
| BMake (c : Z)                        (* ErrorResolver x(c) *)
| BCopy (i : nat)                      (* ErrorResolver x(i) *)
| BMove (i : nat)                      (* ErrorResolver x(std::move(i)) *)
| BAssign (i j : nat)                  (* i = j *)
| BMoveAssign (i j : nat)              (* i = std::move(j) *)
| BDestroy (i : nat)                   (* the life of i ends *)
| BCode (i : nat)                      (* i.getErrorCode() *)
| BMessage (i : nat)                   (* i.getErrorMessage() *)
| BError (c : Z)                       (* p = client.getErrorMessage(c) *)
| BErrorR (c : Z) (buf : option str) (maxLength : N)
                                       (* client.getErrorMessage_r(c, buf, maxLength) *)
| BFile (fs : filesystem) (a : attachment)
                                       (* p = a.getBase64EncodedFile() *)
| BRead (k : nat)                      (* the text at p *)
| BFree (k : nat)                      (* delete[] p *)
| BText (fs : filesystem) (l : list attachment)
                                       (* the attachments are rendered, in sendMail *)
| BCppError (c : Z)                    (* cpp client.getErrorMessage(c) *)
| BCppErrorR (c : Z) (junk : str)      (* cpp client.getErrorMessage_r(c, text) *)
| BCppFile (fs : filesystem) (a : attachment).
                                       (* cpp a.getBase64EncodedFile() *)

(** What the program sees. *)
Inductive bobs :=
| SeeNothing
| SeeNumber (z : Z)
| SeeText (o : option str)             (* [None]: a null pointer *)
| SeeFilled (z : Z) (o : option str).

Fixpoint set_nth {A} (i : nat) (x : A) (l : list A) : list A :=
  match l, i with
  | [], _ => []
  | _ :: r, O => x :: r
  | y :: r, S k => y :: set_nth k x r
  end.

(** The objects ([None]: destroyed) and the returned pointers. *)
Record bstate := mkBS { bs_objs : list (option resolver); bs_ptrs : list ptr }.

Definition obj (i : nat) (st : bstate) : option resolver :=
  match nth_error (bs_objs st) i with Some o => o | None => None end.

(** Operations on a destroyed or not yet created object are not programs: they
    do nothing here. *)
Definition bexec (o : bop) (st : bstate) : H (bobs * bstate) :=
  let skip := hret (SeeNothing, st) in
  let add r := (SeeNothing, mkBS (bs_objs st ++ [Some r]) (bs_ptrs st)) in
  let keep p := (SeeNothing, mkBS (bs_objs st) (bs_ptrs st ++ [p])) in
  match o with
  | BMake c => r <~ resolver_new c ;; hret (add r)
  | BCopy i => match obj i st with
               | None => skip
               | Some x => r <~ resolver_copy x ;; hret (add r)
               end
  | BMove i => match obj i st with
               | None => skip
               | Some x => v <~ resolver_move x ;;
                           hret (SeeNothing, mkBS (set_nth i (Some (snd v)) (bs_objs st) ++ [Some (fst v)]) (bs_ptrs st))
               end
  | BAssign i j => match obj i st, obj j st with
                   | Some x, Some y =>
                       if Nat.eqb i j then skip
                       else r <~ resolver_assign x y ;;
                            hret (SeeNothing, mkBS (set_nth i (Some r) (bs_objs st)) (bs_ptrs st))
                   | _, _ => skip
                   end
  | BMoveAssign i j => match obj i st, obj j st with
                       | Some x, Some y =>
                           if Nat.eqb i j then skip
                           else v <~ resolver_move_assign x y ;;
                                hret (SeeNothing, mkBS (set_nth j (Some (snd v)) (set_nth i (Some (fst v)) (bs_objs st))) (bs_ptrs st))
                       | _, _ => skip
                       end
  | BDestroy i => match obj i st with
                  | None => skip
                  | Some x => resolver_destroy x ;;~ hret (SeeNothing, mkBS (set_nth i None (bs_objs st)) (bs_ptrs st))
                  end
  | BCode i => match obj i st with
               | None => skip
               | Some x => hret (SeeNumber (r_code x), st)
               end
  | BMessage i => match obj i st with
                  | None => skip
                  | Some x => s <~ peek (r_msg x) ;; hret (SeeText s, st)
                  end
  | BError c => p <~ new_error_message c ;; hret (keep p)
  | BErrorR c buf mx => v <~ fill_error_message c buf mx ;; hret (SeeFilled (fst v) (snd v), st)
  | BFile fs a => p <~ new_base64_file fs a ;; hret (keep p)
  | BRead k => match nth_error (bs_ptrs st) k with
               | None => skip
               | Some p => s <~ peek p ;; hret (SeeText s, st)
               end
  | BFree k => match nth_error (bs_ptrs st) k with
               | None => skip
               | Some p => h_del Many p ;;~ hret (SeeNothing, st)
               end
  | BText fs l => s <~ attachments_heap fs l [] ;; hret (SeeText (Some s), st)
  | BCppError c => s <~ cpp_error_message c ;; hret (SeeText (Some s), st)
  | BCppErrorR c junk => v <~ cpp_fill_error_message c junk ;; hret (SeeFilled (fst v) (Some (snd v)), st)
  | BCppFile fs a => s <~ cpp_base64_file fs a ;; hret (SeeText (Some s), st)
  end.

Fixpoint brun (l : list bop) (st : bstate) : H (list bobs * bstate) :=
  match l with
  | [] => hret ([], st)
  | o :: r => v <~ bexec o st ;; w <~ brun r (snd v) ;; hret (fst v :: fst w, snd w)
  end.

Definition bprogram (l : list bop) : outcome (list bobs * bstate) * heap :=
  brun l (mkBS [] []) empty_heap.
