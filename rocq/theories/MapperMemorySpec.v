(** Which operations of a program a mapper survives. *)
From Verif Require Import Base BitMemoryModel.

(** The variable to which the bits in variable [i] have moved after an operation; [None] if they were changed, or the vector does not exist any more. *)
Definition follow (o : vop) (i : nat) : option nat :=
  let unless (j : nat) := if decide (j = i) then None else Some i in
  match o with
  | VDefault _ | VNew _ _ _ | VMake _ _ _ | VCopy _ _ | VBinary _ _ _ _ => Some i
  | VMove r j => if decide (j = i) then Some r else Some i
  | VAssignMove r j => if decide (j = i) then Some r else unless r
  | VSwap j k => if decide (j = i) then Some k else if decide (k = i) then Some j else Some i
  | VDestroy j | VAssign j _ | VResize j _ _ | VResizeUninit j _ | VInplace j _ | VCombine _ j _ | VBinaryMove _ _ j _ => unless j
  end.
(** Operations that threw did nothing. *)
Fixpoint follow_all (os : list vop) (threw : list bool) (i : nat) : option nat :=
  match os, threw with
  | [], _ | _, [] => Some i
  | o :: os, t :: threw => if t : bool then follow_all os threw i else match follow o i with Some k => follow_all os threw k | None => None end
  end.
