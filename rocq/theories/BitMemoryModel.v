(** Model of the memory of BitVector objects: include/routingkit/bit_vector.h ([h:]) and src/bit_vector.cpp ([c:]).

    A program has variables of type BitVector, each of which is an object or not alive. Memory is a finite map from addresses of blocks to the 64-bit
    words in them. What the functions write into the memory is what BitVectorModel says; here it is modelled where the memory
    comes from and which object owns it. [None] is undefined behaviour (a block that does not exist is read, written or freed; a variable that is
    no object is used); an allocation that fails throws, see [outcome]. Sizes are [nat] as in BitVectorModel; BitSizeModel is about 64 bits. *)
From stdpp Require Import gmap.
From Verif Require Import Base BitVectorModel BitVectorSpec.

(** h:113-114: data_ ([None] is the null pointer) and size_ *)
Notation obj := (option nat * nat)%type.
Record bmem := mkBmem { heap : gmap nat (list N); vars : list (option obj) }.
(** c:182, 198, 232: the operation is finished, or std::bad_alloc was thrown. *)
Inductive outcome := Done (s : bmem) | Thrown (s : bmem).

(** h:113-114: the value of an object: what the members of the class read *)
Definition view (h : gmap nat (list N)) (o : obj) : option bitvec :=
  match fst o with
  | None => Some (mkBv true (snd o) [])
  | Some p => d ← h !! p; Some (mkBv false (snd o) d)
  end.
(** c:226-228: free, which does nothing with a null pointer *)
Definition release (p : option nat) (h : gmap nat (list N)) : option (gmap nat (list N)) :=
  match p with
  | None => Some h
  | Some p => _ ← h !! p; Some (delete p h)
  end.
(** h:14-154: an object that is alive, the left or right side of an operation *)
Definition get (s : bmem) (i : nat) : option obj := o ← vars s !! i; o.
(** h:18-24: a variable in which an object can be constructed *)
Definition free_slot (s : bmem) (i : nat) : option unit := match vars s !! i with Some None => Some tt | _ => None end.
(** h:113-114: the object in variable [i] after an operation *)
Definition put (s : bmem) (i : nat) (h : gmap nat (list N)) (o : option obj) : option bmem := l ← wr (vars s) i o; Some (mkBmem h l).

(** Operations of a program. [VMake] is make_bit_vector (h:121-128); [VBinary f r i j] is the construction of [r] by [i | j], [i & j] or [i ^ j] with two
    lvalues, [VBinaryMove] the one with [std::move(i)] (h:132-145). *)
Inductive inplace := IBit (o : bit_op) | ISetAll | IResetAll | ISetAllTo (b : bool) | INot.
Inductive binary := BOr | BAnd | BXor.
Inductive vop :=
  | VDefault (i : nat) | VNew (i n : nat) (b : bool) | VMake (i n : nat) (f : nat -> bool) | VCopy (i j : nat) | VMove (i j : nat) | VDestroy (i : nat)
  | VAssign (i j : nat) | VAssignMove (i j : nat) | VSwap (i j : nat) | VResize (i n : nat) (b : bool) | VResizeUninit (i n : nat)
  | VInplace (i : nat) (o : inplace) | VCombine (f : binary) (i j : nat) | VBinary (f : binary) (r i j : nat) | VBinaryMove (f : binary) (r i j : nat).
(** h:42-91, 103 *)
Definition inplace_call (o : inplace) (v : bitvec) : option bitvec :=
  match o with
  | IBit o => op_call o v | ISetAll => bv_set_all v | IResetAll => bv_reset_all v | ISetAllTo b => bv_set_all_to v b | INot => bv_not v
  end.
(** h:99-101 *)
Definition binary_call (f : binary) (v o : bitvec) : option bitvec :=
  match f with BOr => bv_or v o | BAnd => bv_and v o | BXor => bv_xor v o end.

Section exec.
(** The result of aligned_alloc(64, bytes), and the words that are in new memory. *)
Context (alloc : nat -> gmap nat (list N) -> option nat) (garbage : nat -> list N).

(** c:181-183, 197-199, 231-233: a block with the contents [d]; [Some None] is the exception. That the block is new is required of aligned_alloc. *)
Definition allocate (d : list N) (h : gmap nat (list N)) : option (option (nat * gmap nat (list N))) :=
  match alloc (length d * 8) h with
  | None => Some None
  | Some p => match h !! p with None => Some (Some (p, <[p := d]> h)) | Some _ => None end
  end.
(** c:178-222: the memory of an object with the value [v] that was constructed; without bits no memory is allocated. *)
Definition construct (v : bitvec) (h : gmap nat (list N)) : option (option (obj * gmap nat (list N))) :=
  if bv_null v then Some (Some ((None, bv_size v), h))
  else r ← allocate (bv_data v) h; Some ('(p, h) ← r; Some ((Some p, bv_size v), h)).
(** c:230-245. Memory is allocated also for an empty vector. *)
Definition copy_object (o : obj) (h : gmap nat (list N)) : option (option (obj * gmap nat (list N))) :=
  v ← view h o; c ← bv_copy true v; construct c h.
(** c:247-254: the new object and what remains of the old one *)
Definition move_object (o : obj) : obj * obj := (o, (None, 0)).
(** c:276-283, 395-529: an operation that writes to the memory of an object; [v] is the new value. *)
Definition store (o : obj) (v : bitvec) (h : gmap nat (list N)) : option (obj * gmap nat (list N)) :=
  match fst o with
  | None => _ ← chk (bool_decide (bv_data v = [])); Some ((None, bv_size v), h)
  | Some p => _ ← h !! p; Some ((Some p, bv_size v), <[p := bv_data v]> h)
  end.
(** c:285-310, 312-367: [v] is the new value. The object keeps its memory if it has some and the number of blocks is the same (291, 319), otherwise a new object
    is constructed, swapped with the old one, and the destructor frees the old memory (287, 295-307, 314, 327-363). *)
Definition resize_object (o : obj) (n : nat) (v : bitvec) (h : gmap nat (list N)) : option (option (obj * gmap nat (list N))) :=
  if match fst o with None => false | Some _ => bool_decide (u8_count n = u8_count (snd o)) end then r ← store o v h; Some (Some r)
  else
    r ← construct v h;
    match r with
    | None => Some None
    | Some (o', h) => h ← release (fst o) h; Some (Some (o', h))
    end.
(** The result of an operation that may have thrown; in that case nothing has changed. *)
Definition finish (s : bmem) (i : nat) (r : option (obj * gmap nat (list N))) : option outcome :=
  match r with
  | None => Some (Thrown s)
  | Some (o, h) => s' ← put s i h (Some o); Some (Done s')
  end.
(** An operation on the object in variable [i] *)
Definition exec (o : vop) (s : bmem) : option outcome :=
  match o with
  | VDefault i => _ ← free_slot s i; finish s i (Some ((None, 0), heap s))
  | VNew i n b => _ ← free_slot s i; v ← bv_new n b; r ← construct v (heap s); finish s i r
  | VMake i n f => _ ← free_slot s i; v ← make_bit_vector (garbage (u64_count n)) n f; r ← construct v (heap s); finish s i r
  | VCopy i j => _ ← free_slot s i; o ← get s j; r ← copy_object o (heap s); finish s i r
  | VMove i j =>
      _ ← free_slot s i; o ← get s j;
      let '(o, rest) := move_object o in
      s ← put s i (heap s) (Some o); s ← put s j (heap s) (Some rest); Some (Done s)
  | VDestroy i => o ← get s i; h ← release (fst o) (heap s); s ← put s i h None; Some (Done s)
  | VAssign i j =>
      (* c:256-261: the parameter is a copy, which is swapped with the object and then destroyed *)
      o ← get s j; old ← get s i; r ← copy_object o (heap s);
      match r with
      | None => Some (Thrown s)
      | Some (o, h) => h ← release (fst old) h; s ← put s i h (Some o); Some (Done s)
      end
  | VAssignMove i j =>
      (* the parameter is made by the move constructor, which empties [j], possibly [i] itself *)
      o ← get s j;
      let '(o, rest) := move_object o in
      s ← put s j (heap s) (Some rest);
      old ← get s i; h ← release (fst old) (heap s); s ← put s i h (Some o); Some (Done s)
  | VSwap i j => (* c:263-274 *) o ← get s i; o' ← get s j; s ← put s i (heap s) (Some o'); s ← put s j (heap s) (Some o); Some (Done s)
  | VResize i n b => o ← get s i; v ← view (heap s) o; v ← bv_resize v n b; r ← resize_object o n v (heap s); finish s i r
  | VResizeUninit i n => o ← get s i; v ← view (heap s) o; v ← bv_resize_uninit (garbage (u64_count n)) v n; r ← resize_object o n v (heap s); finish s i r
  | VInplace i f => o ← get s i; v ← view (heap s) o; v ← inplace_call f v; r ← store o v (heap s); finish s i (Some r)
  | VCombine f i j => o ← get s i; v ← view (heap s) o; o' ← get s j; w ← view (heap s) o'; v ← binary_call f v w; r ← store o v (heap s); finish s i (Some r)
  | VBinary f r i j =>
      _ ← free_slot s r; o ← get s i; o' ← get s j; w ← view (heap s) o';
      c ← copy_object o (heap s);
      match c with
      | None => Some (Thrown s)
      | Some (x, h) => v ← view h x; v ← binary_call f v w; c ← store x v h; finish s r (Some c)
      end
  | VBinaryMove f r i j =>
      _ ← free_slot s r; o ← get s i; v ← view (heap s) o; o' ← get s j; w ← view (heap s) o'; v ← binary_call f v w;
      '(o, h) ← store o v (heap s);
      let '(o, rest) := move_object o in
      s ← put s r h (Some o); s ← put s i h (Some rest); Some (Done s)
  end.
(** Executions of programs: whether each operation threw, and the memory at the end. The objects that exist stay when an exception is caught. *)
Inductive executes : bmem -> list vop -> list bool -> bmem -> Prop :=
  | executes_nil s : executes s [] [] s
  | executes_done s o os s' ts s'' : exec o s = Some (Done s') -> executes s' os ts s'' -> executes s (o :: os) (false :: ts) s''
  | executes_thrown s o os s' ts s'' : exec o s = Some (Thrown s') -> executes s' os ts s'' -> executes s (o :: os) (true :: ts) s''.
End exec.
