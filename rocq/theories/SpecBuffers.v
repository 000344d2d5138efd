(** What a program may expect of error messages, encoded files and ErrorResolver
    objects: plain values, and memory that belongs to the caller until freed. *)

From Coq Require Import Ascii String List NArith ZArith Bool Arith.
From Verif Require Import Base ModelErrors ModelAttachment ModelMessage ModelCpp ModelBuffers.
Import ListNotations.
Open Scope nat_scope.

(** An ErrorResolver: destroyed, or a code and a message ([None] once its
    content has been moved away). *)
Definition vobj := option (Z * option str).

(** A pointer returned to the program. *)
Inductive vptr := VNull | VText (s : str) | VFreed.

(** [v_lost] counts the blocks that nobody can free any more. *)
Record view := mkV { v_objs : list vobj; v_ptrs : list vptr; v_lost : nat }.

Definition vget (i : nat) (v : view) : vobj :=
  match nth_error (v_objs v) i with Some o => o | None => None end.

Definition empty_object : vobj := Some (0%Z, None).

Definition encoded (fs : filesystem) (a : attachment) : option str :=
  match getBase64EncodedFile fs a with Some s => Some (cstr s) | None => None end.

(** The effect of one operation on values. *)
Definition vexec (o : bop) (v : view) : outcome (bobs * view) :=
  let skip := Done (SeeNothing, v) in
  let see x := Done (x, v) in
  let lose x := Done (x, mkV (v_objs v) (v_ptrs v) (S (v_lost v))) in
  let objs l := Done (SeeNothing, mkV l (v_ptrs v) (v_lost v)) in
  let ptrs l := Done (SeeNothing, mkV (v_objs v) l (v_lost v)) in
  match o with
  | BMake c => objs (v_objs v ++ [Some (c, Some (getErrorMessage c))])
  | BCopy i => match vget i v with
               | None => skip
               | Some (_, None) => Undef (UB_NullDeref PArg)
               | Some x => objs (v_objs v ++ [Some x])
               end
  | BMove i => match vget i v with
               | None => skip
               | Some x => objs (set_nth i empty_object (v_objs v) ++ [Some x])
               end
  | BAssign i j => match vget i v, vget j v with
                   | Some _, Some y =>
                       if Nat.eqb i j then skip
                       else match snd y with
                            | None => Undef (UB_NullDeref PArg)
                            | Some _ => objs (set_nth i (Some y) (v_objs v))
                            end
                   | _, _ => skip
                   end
  | BMoveAssign i j => match vget i v, vget j v with
                       | Some _, Some y =>
                           if Nat.eqb i j then skip
                           else objs (set_nth j empty_object (set_nth i (Some y) (v_objs v)))
                       | _, _ => skip
                       end
  | BDestroy i => match vget i v with
                  | None => skip
                  | Some _ => objs (set_nth i None (v_objs v))
                  end
  | BCode i => match vget i v with None => skip | Some x => see (SeeNumber (fst x)) end
  | BMessage i => match vget i v with None => skip | Some x => see (SeeText (snd x)) end
  | BError c => ptrs (v_ptrs v ++ [VText (getErrorMessage c)])
  | BErrorR c buf mx => match getErrorMessage_r c buf mx with
                        | Done r => see (SeeFilled (fst r) (snd r))
                        | Undef u => Undef u
                        | _ => Diverge
                        end
  | BFile fs a => ptrs (v_ptrs v ++ [match encoded fs a with None => VNull | Some s => VText s end])
  | BRead k => match nth_error (v_ptrs v) k with
               | None => skip
               | Some VNull => see (SeeText None)
               | Some (VText s) => see (SeeText (Some s))
               | Some VFreed => Undef UB_UseAfterFree
               end
  | BFree k => match nth_error (v_ptrs v) k with
               | None => skip
               | Some VNull => skip
               | Some (VText _) => ptrs (set_nth k VFreed (v_ptrs v))
               | Some VFreed => Undef UB_DoubleFree
               end
  | BText fs l => see (SeeText (Some (createAttachmentsText fs l)))
  | BCppError c => lose (SeeText (Some (getErrorMessage c)))
  | BCppErrorR c junk => match cpp_getErrorMessage_r c junk with
                         | Done r => lose (SeeFilled (fst r) (Some (snd r)))
                         | Undef u => Undef u
                         | _ => Diverge
                         end
  | BCppFile fs a => match encoded fs a with
                     | None => see (SeeText (Some []))
                     | Some s => lose (SeeText (Some s))
                     end
  end.

Fixpoint vrun (l : list bop) (v : view) : outcome (list bobs * view) :=
  match l with
  | [] => Done ([], v)
  | o :: r => obind (vexec o v) (fun x => obind (vrun r (snd x)) (fun y => Done (fst x :: fst y, snd y)))
  end.

Definition values (l : list bop) : outcome (list bobs * view) := vrun l (mkV [] [] 0).

(** Blocks that the program can still reach. *)
Definition held (v : view) : nat :=
  length (filter (fun o => match o with Some (_, Some _) => true | _ => false end) (v_objs v)) +
  length (filter (fun p => match p with VText _ => true | _ => false end) (v_ptrs v)).

(** The program has destroyed its objects and freed what it was given. *)
Definition cleaned (v : view) : Prop :=
  Forall (fun o => o = None) (v_objs v) /\ Forall (fun p => forall s, p <> VText s) (v_ptrs v).

(** A program that does not ask for what is not there: no copy of an object
    whose content was moved away, no use of freed memory, buffers as large as
    announced. *)
Definition sensible_op (v : view) (o : bop) : Prop :=
  match o with
  | BCopy i => forall c, vget i v <> Some (c, None)
  | BAssign _ j => forall c, vget j v <> Some (c, None)
  | BRead k | BFree k => nth_error (v_ptrs v) k <> Some VFreed
  | BErrorR _ (Some b) mx => (mx <= slen b)%N
  | BCppErrorR _ junk => slen junk = 1024%N
  | _ => True
  end.

Fixpoint sensible (l : list bop) (v : view) : Prop :=
  match l with
  | [] => True
  | o :: r => sensible_op v o /\ forall x v', vexec o v = Done (x, v') -> sensible r v'
  end.

(** Operations of the std::string interface. *)
Definition cpp_op (o : bop) : bool :=
  match o with BCppError _ | BCppErrorR _ _ | BCppFile _ _ => true | _ => false end.

(** The blocks one operation leaves behind. *)
Definition leaked (o : bop) : nat :=
  match o with
  | BCppError _ | BCppErrorR _ _ => 1
  | BCppFile fs a => match encoded fs a with Some _ => 1 | None => 0 end
  | _ => 0
  end.
