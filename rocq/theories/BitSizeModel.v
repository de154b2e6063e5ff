(** Model of the arithmetic with sizes in src/bit_vector.cpp ([c:]) with 64 bits, and of the replacement of aligned_alloc (c:26-42).

    Numbers of type uint64_t are [N]. *)
From Verif Require Import Base.

(** c:103-113, 372-388: reduction to 64 bits, the type uint64_t *)
Definition u64 (x : N) : N := (x mod 2 ^ 64)%N.
(** c:103-105 *)
Definition v8_count64 (bit_count : N) : N := (u64 (bit_count + 511) / 512)%N.
(** c:107-109 *)
Definition u64_count64 (bit_count : N) : N := u64 (v8_count64 bit_count * 8).
(** c:111-113 *)
Definition u8_count64 (bit_count : N) : N := u64 (v8_count64 bit_count * 64).
(** c:372-375, 385-388: the loop; [None] if it does not end within [fuel] rounds *)
Fixpoint grow64 (fuel : nat) (n x : N) : option N :=
  if (n <=? x)%N then match fuel with O => None | S fuel => grow64 fuel (u64 (2 * n)) x end else Some n.

(** c:27-42: the memory as bytes by their addresses; malloc gives out ranges of addresses. *)
Record rawmem := mkRaw { bytes : N -> N; allocated : list (N * N) }.
(** c:28: address [a] belongs to a range (begin and length) that malloc gave out. *)
Definition in_range (a : N) (r : N * N) : bool := (fst r <=? a)%N && (a <? fst r + snd r)%N.
(** c:31, 38: an address that may be read and written *)
Definition valid_address (m : rawmem) (a : N) : bool := existsb (in_range a) (allocated m).
(** c:31: the assignment, reduced to uint8_t *)
Definition write_byte (m : rawmem) (a x : N) : option rawmem :=
  _ ← chk (valid_address m a); Some (mkRaw (fun b => if (b =? a)%N then (x mod 256)%N else bytes m b) (allocated m)).
(** c:38 *)
Definition read_byte (m : rawmem) (a : N) : option N := _ ← chk (valid_address m a); Some (bytes m a).
(** c:28: [p] is what malloc returned for [size] bytes, 0 is the null pointer. *)
Definition malloc (p size : N) (m : rawmem) : rawmem := if (p =? 0)%N then m else mkRaw (bytes m) ((p, size) :: allocated m).
(** c:40: free, which does nothing with a null pointer; [None] if [p] is no address that malloc returned *)
Definition free (p : N) (m : rawmem) : option rawmem :=
  if (p =? 0)%N then Some m else
  _ ← chk (existsb (fun r => (fst r =? p)%N) (allocated m)); Some (mkRaw (bytes m) (List.filter (fun r => negb (fst r =? p)%N) (allocated m))).
(** c:27-33; [p] is the result of malloc. The null pointer is not treated specially. *)
Definition emulated_aligned_alloc (p alignment size : N) (m : rawmem) : option (N * rawmem) :=
  let m := malloc p (u64 (size + alignment)) m in
  let aligned := u64 (u64 (p + alignment) / alignment * alignment) in
  m ← write_byte m (u64 (aligned + (2 ^ 64 - 1))) (u64 (aligned + (2 ^ 64 - p)));
  Some (aligned, m).
(** c:35-42 *)
Definition emulated_aligned_free (p : N) (m : rawmem) : option rawmem :=
  if (p =? 0)%N then Some m else
  shift ← read_byte m (u64 (p + (2 ^ 64 - 1)));
  free (u64 (p + (2 ^ 64 - shift))) m.
