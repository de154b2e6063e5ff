(** What programs with bit vectors do: variables with lists of booleans. *)
From stdpp Require Import gmap.
From Verif Require Import Base BitVectorModel BitVectorSpec BitMemoryModel.

(** The variables of a program; [None] is a variable that is not alive. *)
Notation values := (list (option (list bool))).
(** The value of a variable that is alive *)
Definition val (A : values) (i : nat) : option (list bool) := match A !! i with Some (Some l) => Some l | _ => None end.
(** A new value of a variable that is not alive, of a variable that is *)
Definition born (A : values) (i : nat) (l : list bool) : option values := match A !! i with Some None => Some (<[i := Some l]> A) | _ => None end.
Definition changed (A : values) (i : nat) (l : list bool) : option values := match A !! i with Some (Some _) => Some (<[i := Some l]> A) | _ => None end.
Definition bits_of (f : binary) : bool -> bool -> bool := match f with BOr => orb | BAnd => andb | BXor => xorb end.
(** What an operation means; [None] if it is not allowed: a variable has to be alive or not, an index has to be in range, operands have to have the same size.
    Resizing has the conditions of C05: for the value true no size is a multiple of 512, and resizing without a value is for vectors that are not empty. *)
Definition means (o : vop) (A : values) : option values :=
  match o with
  | VDefault i => born A i []
  | VNew i n b => born A i (replicate n b)
  | VMake i n f => born A i (f <$> seq 0 n)
  | VCopy i j => match val A j with Some l => born A i l | None => None end
  | VMove i j => match val A j with Some l => match born A i l with Some A => changed A j [] | None => None end | None => None end
  | VDestroy i => match val A i with Some _ => Some (<[i := None]> A) | None => None end
  | VAssign i j => match val A j with Some l => changed A i l | None => None end
  | VAssignMove i j => match val A j with Some l => match changed A j [] with Some A => changed A i l | None => None end | None => None end
  | VSwap i j => match val A i, val A j with Some l, Some k => match changed A i k with Some A => changed A j l | None => None end | _, _ => None end
  | VResize i n b =>
      match val A i with
      | Some l => if decide (b = false \/ n < length l \/ (length l mod 512 <> 0 /\ n mod 512 <> 0)) then changed A i (resized l n b) else None
      | None => None
      end
  | VResizeUninit i n => match val A i with Some l => if decide (l <> []) then changed A i (resized l n false) else None | None => None end
  | VInplace i (IBit o) => match val A i with Some l => if decide (op_index o < length l) then changed A i (op_list l o) else None | None => None end
  | VInplace i ISetAll => match val A i with Some l => changed A i (replicate (length l) true) | None => None end
  | VInplace i IResetAll => match val A i with Some l => changed A i (replicate (length l) false) | None => None end
  | VInplace i (ISetAllTo b) => match val A i with Some l => changed A i (replicate (length l) b) | None => None end
  | VInplace i INot => match val A i with Some l => changed A i (negb <$> l) | None => None end
  | VCombine f i j =>
      match val A i, val A j with
      | Some l, Some k => if decide (length l = length k) then changed A i (zip_with (bits_of f) l k) else None
      | _, _ => None
      end
  | VBinary f r i j =>
      match val A i, val A j with
      | Some l, Some k => if decide (length l = length k) then born A r (zip_with (bits_of f) l k) else None
      | _, _ => None
      end
  | VBinaryMove f r i j =>
      match val A i, val A j with
      | Some l, Some k => if decide (length l = length k) then match born A r (zip_with (bits_of f) l k) with Some A => changed A i [] | None => None end else None
      | _, _ => None
      end
  end.
(** Programs: an operation that threw changed nothing. *)
Fixpoint mean (os : list vop) (threw : list bool) (A : values) : option values :=
  match os, threw with
  | [], [] => Some A
  | o :: os, t :: threw => match means o A with Some A' => mean os threw (if t : bool then A else A') | None => None end
  | _, _ => None
  end.

(** The memory that an object owns *)
Definition owns (s : bmem) (i p : nat) : Prop := exists n, vars s !! i = Some (Some (Some p, n)).
(** Variables have the values [A]; each block belongs to exactly one object, and there are no others. *)
Record holds (s : bmem) (A : values) : Prop := {
  holds_length : length (vars s) = length A;
  holds_dead : forall i, vars s !! i = Some None <-> A !! i = Some None;
  holds_value : forall i o l, vars s !! i = Some (Some o) -> A !! i = Some (Some l) -> exists v, view (heap s) o = Some v /\ bv_rep v l;
  holds_alone : forall i j p, owns s i p -> owns s j p -> i = j;
  holds_all : forall p, is_Some (heap s !! p) -> exists i, owns s i p }.

(** aligned_alloc returns new memory, [garbage n] are [n] words of 64 bits. *)
Definition allocator (alloc : nat -> gmap nat (list N) -> option nat) : Prop := forall n h p, alloc n h = Some p -> h !! p = None.
Definition words_of_memory (garbage : nat -> list N) : Prop := forall n, length (garbage n) = n /\ Forall (fun w => (w < 2 ^ 64)%N) (garbage n).
