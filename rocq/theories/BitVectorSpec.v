(** What a bit vector represents: a list of booleans. *)
From Verif Require Import Base BitVectorModel.

(** Bit [x] of an array of 64-bit words. *)
Definition bit_at (d : list N) (x : nat) : bool := N.testbit (nth (x / 64) d 0%N) (N.of_nat (x mod 64)).

(** The words fit into 64 bits, there are enough of them, and the bits behind the end are zero. *)
Record bv_rep (v : bitvec) (l : list bool) : Prop := {
  rep_size : bv_size v = length l;
  rep_len : length (bv_data v) = (length l + 511) / 512 * 8;
  rep_words : Forall (fun w => (w < 2 ^ 64)%N) (bv_data v);
  rep_bits : forall x, bit_at (bv_data v) x = nth x l false;
  rep_null : bv_null v = true -> l = [] }.

(** The single-bit operations on the list. *)
Inductive bit_op := OSet (x : nat) | OSetIf (x : nat) (b : bool) | OSetTo (x : nat) (b : bool) | OReset (x : nat) | OToggle (x : nat).
Definition op_index (o : bit_op) : nat :=
  match o with OSet x | OSetIf x _ | OSetTo x _ | OReset x | OToggle x => x end.
(** New value of the bit. *)
Definition op_value (o : bit_op) (old : bool) : bool :=
  match o with OSet _ => true | OSetIf _ b => old || b | OSetTo _ b => b | OReset _ => false | OToggle _ => negb old end.
Definition op_list (l : list bool) (o : bit_op) : list bool := <[op_index o := op_value o (nth (op_index o) l false)]> l.
(** The calls. *)
Definition op_call (o : bit_op) (v : bitvec) : option bitvec :=
  match o with
  | OSet x => bv_set v x | OSetIf x b => bv_set_if v x b | OSetTo x b => bv_set_to v x b
  | OReset x => bv_reset v x | OToggle x => bv_toggle v x
  end.

(** Number of true elements. *)
Definition count_true (l : list bool) : nat := length (filter (fun b => b = true) l).
(** What resizing means. *)
Definition resized (l : list bool) (n : nat) (b : bool) : list bool := take n l ++ replicate (n - length l) b.

(** The order on vectors: a shorter one is smaller; between vectors of equal size the first
    group of 64 bits in which they differ decides, and there the last bit that differs. *)
Definition bits_less (l k : list bool) : Prop :=
  length l < length k \/
  (length l = length k /\ exists x, nth x l false = false /\ nth x k false = true /\
     forall y, y / 64 < x / 64 \/ (y / 64 = x / 64 /\ x < y) -> nth y l false = nth y k false).
