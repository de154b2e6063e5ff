(** Model of include/routingkit/bit_vector.h and src/bit_vector.cpp. Line numbers of the
    header are marked [h:], those of the source file [c:].

    A vector is its size, its 64-bit words ([N]) and whether data_ is the null pointer.
    Sizes are [nat]; the wrap-around of sizes near 2^64 is not modelled. Memory allocation
    succeeds. Uninitialised memory has arbitrary contents, given as an argument. [None] is
    undefined behaviour. The assertions about padding bits (c:165-177) are not modelled as
    checks; that they hold is the invariant of the proofs. *)
From Verif Require Import Base.

Record bitvec := mkBv { bv_null : bool; bv_size : nat; bv_data : list N }.

Definition ones64 : N := N.ones 64.
(** ~w for a 64-bit word *)
Definition not64 (w : N) : N := N.lxor w ones64.

(** c:103-113 *)
Definition v8_count (bit_count : nat) : nat := (bit_count + 511) / 512.
Definition u64_count (bit_count : nat) : nat := v8_count bit_count * 8.
Definition u8_count (bit_count : nat) : nat := v8_count bit_count * 64.

(** c:118-123: the words of the mask, the next word and the rest of the size *)
Fixpoint mask_loop (fuel x i : nat) (u : list N) : option (list N * nat * nat) :=
  if decide (64 <= x) then
    match fuel with
    | O => None
    | S fuel => u ← wr u i ones64; mask_loop fuel (x - 64) (S i) u
    end
  else Some (u, i, x).
(** c:115-128, get_padding_mask *)
Definition padding_mask (size : nat) : option (list N) :=
  '(u, i, x) ← mask_loop 8 (size mod 512) 0 (replicate 8 0%N);
  if decide (x = 0) then Some u else wr u i (N.shiftl 1 (N.of_nat x) - 1)%N.

(** One operation on the eight words of block [k]; [f j w] is the new value of word [j]. *)
Definition upd_block (f : nat -> N -> N) (k : nat) (d : list N) : option (list N) :=
  for_range 0 8 (fun j d => w ← d !! (8 * k + j); wr d (8 * k + j) (f j w)) d.
(** The eight words of block [k]. *)
Definition block (d : list N) (k : nat) : option (list N) :=
  mapM (fun j => d !! (8 * k + j)) (seq 0 8).
(** The loop over all blocks of a vector with [size] bits. *)
Definition all_blocks (size : nat) (f : nat -> nat -> N -> N) (d : list N) : option (list N) :=
  for_range 0 (v8_count size) (fun k d => upd_block (f k) k d) d.

(** c:284-291 *)
Definition reset_padding (v : bitvec) : option bitvec :=
  if decide (bv_size v mod 512 = 0) then Some v
  else
    m ← padding_mask (bv_size v);
    d ← upd_block (fun j w => N.land w (nth j m 0%N)) (bv_size v / 512) (bv_data v);
    Some (mkBv (bv_null v) (bv_size v) d).

(** c:176-177 *)
Definition bv_empty : bitvec := mkBv true 0 [].
(** c:179-193; [garbage] is the content of the memory *)
Definition bv_uninit (garbage : list N) (size : nat) : option bitvec :=
  if decide (size = 0) then Some bv_empty
  else
    _ ← chk (bool_decide (length garbage = u64_count size));
    reset_padding (mkBv false size garbage).
(** c:195-226 *)
Definition bv_new (size : nat) (value : bool) : option bitvec :=
  if decide (size = 0) then Some bv_empty
  else
    let d := replicate (u64_count size) (if value then ones64 else 0%N) in
    if value then reset_padding (mkBv false size d) else Some (mkBv false size d).
(** c:232-247. [alloc0]: aligned_alloc(64, 0) returns a non-null pointer; otherwise the copy
    of an empty vector throws. *)
Definition bv_copy (alloc0 : bool) (v : bitvec) : option bitvec :=
  _ ← chk (alloc0 || bool_decide (bv_size v <> 0));
  d ← all_blocks (bv_size v) (fun k j _ => nth (8 * k + j) (bv_data v) 0%N) (replicate (u64_count (bv_size v)) 0%N);
  Some (mkBv false (bv_size v) d).

(** h:34-40 and h:42-86. An index must be below the size (assertion). *)
Definition bv_access (v : bitvec) (x : nat) : option N :=
  _ ← chk (bool_decide (x < bv_size v)); bv_data v !! (x / 64).
Definition bv_is_set (v : bitvec) (x : nat) : option bool :=
  d ← bv_access v x; Some (negb (N.eqb (N.land d (N.shiftl 1 (N.of_nat (x mod 64)))) 0)).
Definition bv_store (v : bitvec) (x : nat) (d : N) : option bitvec :=
  l ← wr (bv_data v) (x / 64) d; Some (mkBv (bv_null v) (bv_size v) l).
Definition bv_set (v : bitvec) (x : nat) : option bitvec :=
  d ← bv_access v x; bv_store v x (N.lor d (N.shiftl 1 (N.of_nat (x mod 64)))).
Definition bv_set_if (v : bitvec) (x : nat) (value : bool) : option bitvec :=
  d ← bv_access v x; bv_store v x (N.lor d (N.shiftl (N.b2n value) (N.of_nat (x mod 64)))).
Definition bv_set_to (v : bitvec) (x : nat) (value : bool) : option bitvec :=
  d ← bv_access v x;
  bv_store v x (N.lor (N.land d (not64 (N.shiftl 1 (N.of_nat (x mod 64))))) (N.shiftl (N.b2n value) (N.of_nat (x mod 64)))).
Definition bv_reset (v : bitvec) (x : nat) : option bitvec :=
  d ← bv_access v x; bv_store v x (N.land d (not64 (N.shiftl 1 (N.of_nat (x mod 64))))).
Definition bv_toggle (v : bitvec) (x : nat) : option bitvec :=
  d ← bv_access v x; bv_store v x (N.lxor d (N.shiftl 1 (N.of_nat (x mod 64)))).
(** h:121-128, make_bit_vector *)
Definition make_bit_vector (garbage : list N) (size : nat) (f : nat -> bool) : option bitvec :=
  v ← bv_uninit garbage size; for_range 0 size (fun x v => bv_set_to v x (f x)) v.

(** c:293-318. [*j = *i] copies the common blocks. *)
Definition copy_blocks (n : nat) (src dst : list N) : option (list N) :=
  for_range 0 n (fun k d => s ← block src k; upd_block (fun j _ => nth j s 0%N) k d) dst.
Definition bv_resize_uninit (garbage : list N) (v : bitvec) (new_size : nat) : option bitvec :=
  if bv_null v then bv_uninit garbage new_size
  else if decide (u8_count new_size = u8_count (bv_size v)) then
    reset_padding (mkBv (bv_null v) new_size (bv_data v))
  else
    o ← bv_new new_size false;
    d ← copy_blocks (v8_count (bv_size v) `min` v8_count new_size) (bv_data v) (bv_data o);
    reset_padding (mkBv (bv_null o) (bv_size o) d).
(** c:320-367. The new blocks: all_one or all_zero is written to every block from [j] on. In
    the first branch [size_ / 512] may be one past the last block. *)
Definition bv_resize (v : bitvec) (new_size : nat) (value : bool) : option bitvec :=
  if bv_null v then bv_new new_size value
  else if decide (new_size < bv_size v) then bv_resize_uninit [] v new_size
  else if decide (u8_count new_size = u8_count (bv_size v)) then
    if value then
      mn ← padding_mask new_size; mo ← padding_mask (bv_size v);
      d ← upd_block (fun j w => N.lor w (N.land (nth j mn 0%N) (not64 (nth j mo 0%N)))) (bv_size v / 512) (bv_data v);
      Some (mkBv false new_size d)
    else Some (mkBv false new_size (bv_data v))
  else
    o ← bv_new new_size false;
    let n := v8_count (bv_size v) in
    d ← copy_blocks n (bv_data v) (bv_data o);
    if value then
      mo ← padding_mask (bv_size v);
      _ ← chk (bool_decide (n <> 0));
      d ← upd_block (fun j w => N.lor w (not64 (nth j mo 0%N))) (n - 1) d;
      d ← for_range n (v8_count new_size) (fun k d => upd_block (fun _ _ => ones64) k d) d;
      mn ← padding_mask new_size;
      d ← upd_block (fun j w => N.land w (nth j mn 0%N)) (v8_count new_size - 1) d;
      Some (mkBv (bv_null o) new_size d)
    else
      d ← for_range n (v8_count new_size) (fun k d => upd_block (fun _ _ => 0%N) k d) d;
      Some (mkBv (bv_null o) new_size d).
(** c:371-374 and 384-387: the least power of two above [x] (for x < 2^63) *)
Fixpoint grow (fuel n x : nat) : option nat :=
  if decide (n <= x) then match fuel with O => None | S fuel => grow fuel (2 * n) x end else Some n.
(** c:369-379 and 381-393 *)
Definition bv_large_enough_uninit (garbage : nat -> list N) (v : bitvec) (x : nat) : option bitvec :=
  if decide (bv_size v <= x) then n ← grow x 1 x; bv_resize_uninit (garbage n) v n else Some v.
Definition bv_large_enough (v : bitvec) (x : nat) (value : bool) : option bitvec :=
  if decide (bv_size v <= x) then n ← grow x 1 x; bv_resize v n value else Some v.

(** __builtin_popcountll (emulate_gcc_builtin.h:12-18) *)
Definition popcount (w : N) : nat := length (filter (fun b => N.testbit w (N.of_nat b) = true) (seq 0 64)).
(** c:396-403 *)
Definition bv_popcount (v : bitvec) : option nat :=
  for_range 0 (u64_count (bv_size v)) (fun i n => w ← bv_data v !! i; Some (n + popcount w)) 0.
(** c:405-411, 413-418, 420-431 *)
Definition bv_set_all (v : bitvec) : option bitvec :=
  d ← all_blocks (bv_size v) (fun _ _ _ => ones64) (bv_data v); reset_padding (mkBv (bv_null v) (bv_size v) d).
Definition bv_reset_all (v : bitvec) : option bitvec :=
  d ← all_blocks (bv_size v) (fun _ _ _ => 0%N) (bv_data v); Some (mkBv (bv_null v) (bv_size v) d).
Definition bv_set_all_to (v : bitvec) (value : bool) : option bitvec :=
  d ← all_blocks (bv_size v) (fun _ _ _ => if value then ones64 else 0%N) (bv_data v);
  if value then reset_padding (mkBv (bv_null v) (bv_size v) d) else Some (mkBv (bv_null v) (bv_size v) d).

(** c:130-144 and 146-160 *)
Definition is_any_bit_set (u : list N) : bool :=
  let u := fun i => nth i u 0%N in
  negb (N.eqb (N.lor (N.lor (N.lor (u 0) (u 1)) (N.lor (u 4) (u 5))) (N.lor (N.lor (u 2) (u 3)) (N.lor (u 6) (u 7)))) 0).
Definition are_all_bits_set (u : list N) : bool :=
  let u := fun i => nth i u 0%N in
  N.eqb (N.land (N.land (N.land (u 0) (u 1)) (N.land (u 4) (u 5))) (N.land (N.land (u 2) (u 3)) (N.land (u 6) (u 7)))) ones64.
(** c:433-449 *)
Definition bv_are_all_set (v : bitvec) : option bool :=
  if decide (bv_size v = 0) then Some true
  else
    let n := v8_count (bv_size v) - 1 in
    x ← for_range 0 n (fun k x => b ← block (bv_data v) k; Some (zip_with N.land x b)) (replicate 8 ones64);
    b ← block (bv_data v) n; m ← padding_mask (bv_size v);
    Some (are_all_bits_set (zip_with N.land x (zip_with (fun w p => N.lor w (not64 p)) b m))).
(** c:451-462 *)
Definition bv_is_any_set (v : bitvec) : option bool :=
  if decide (bv_size v = 0) then Some false
  else
    x ← for_range 0 (v8_count (bv_size v)) (fun k x => b ← block (bv_data v) k; Some (zip_with N.lor x b)) (replicate 8 0%N);
    Some (is_any_bit_set x).
(** c:464-492 *)
Definition bv_combine (f : N -> N -> N) (v o : bitvec) : option bitvec :=
  _ ← chk (bool_decide (bv_size v = bv_size o));
  d ← for_range 0 (v8_count (bv_size v)) (fun k d => b ← block (bv_data o) k; upd_block (fun j w => f w (nth j b 0%N)) k d) (bv_data v);
  Some (mkBv (bv_null v) (bv_size v) d).
Definition bv_or := bv_combine N.lor.
Definition bv_xor := bv_combine N.lxor.
Definition bv_and := bv_combine N.land.
(** c:494-500 *)
Definition bv_not (v : bitvec) : option bitvec :=
  d ← all_blocks (bv_size v) (fun _ _ w => not64 w) (bv_data v); reset_padding (mkBv (bv_null v) (bv_size v) d).
(** c:502-515 *)
Definition bv_eq (l r : bitvec) : option bool :=
  if decide (bv_size l <> bv_size r) then Some false
  else
    x ← for_range 0 (v8_count (bv_size l)) (fun k x =>
      a ← block (bv_data l) k; b ← block (bv_data r) k; Some (zip_with N.lor x (zip_with N.lxor a b))) (replicate 8 0%N);
    Some (negb (is_any_bit_set x)).
(** c:517-527; [n] words from [i] on *)
Fixpoint bv_less_words (l r : list N) (n i : nat) : option bool :=
  match n with
  | O => Some false
  | S n => a ← l !! i; b ← r !! i; if N.eqb a b then bv_less_words l r n (S i) else Some (N.ltb a b)
  end.
Definition bv_less (l r : bitvec) : option bool :=
  if decide (bv_size l <> bv_size r) then Some (bool_decide (bv_size l < bv_size r))
  else bv_less_words (bv_data l) (bv_data r) (u64_count (bv_size l)) 0.
