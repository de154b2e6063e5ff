(** Model of src/id_mapper.cpp ([c:]), include/routingkit/id_mapper.h ([h:]) and
    src/bit_select.cpp ([s:]).

    The mapper holds a pointer to the words of a bit vector; the model passes the words.
    64-bit quantities are [nat]; the two 32-bit counters of the constructor (c:49) wrap around.
    [None] is an access outside an array or the failure of an assertion that matters (those of
    s:9-48 and c:79-121). *)
From Verif Require Import Base BitVectorModel.

Record mapper := mkMapper { bits_ : list N; bit_count_ : nat; rank_ : list nat; select_ : list nat }.

(** c:13-45: the number of set bits in the eight words of a block *)
Definition block_popcount (bits : list N) (i : nat) : option nat :=
  for_range 0 8 (fun k s => w ← bits !! (i + k); Some (s + popcount w)) 0.
Definition build_rank (bit_count : nat) (bits : list N) : option (list nat) :=
  let n := (bit_count + 511) / 512 in
  '(rank, i, s) ← for_range 0 n (fun j '(rank, i, s) =>
      rank ← wr rank j s;
      c ← block_popcount bits i;
      Some (rank, i + 8, s + c)) (replicate (n + 1) 0, 0, 0);
  wr rank n s.

(** h:26-31 *)
Definition local_id_count (m : mapper) : nat := default 0 (last (rank_ m)).
(** h:22-24 *)
Definition global_id_count (m : mapper) : nat := bit_count_ m.

(** c:52-56: fill in the block of every 256th local id; 32-bit counters *)
Fixpoint select_loop (fuel : nat) (lo hi block : nat) (q : nat) (value : N) (select : list nat) : option (nat * N * list nat) :=
  if decide (N.of_nat lo <= value /\ value < N.of_nat hi)%N then
    match fuel with
    | O => None
    | S fuel =>
        select ← wr select q block;
        let q := q + 1 in
        select_loop fuel lo hi block q ((N.of_nat q * 256) mod 2 ^ 32)%N select
    end
  else Some (q, value, select).
(** c:49-57. [fuel] of the inner loop: a block has at most 512 set bits. *)
Definition build_select (rank : list nat) (count : nat) : option (list nat) :=
  '(_, _, select) ← for_range 0 (length rank - 1) (fun block '(q, value, select) =>
      lo ← rank !! block; hi ← rank !! (block + 1);
      select_loop 4 lo hi block q value select) (0, 0%N, replicate ((count + 255) / 256) 0);
  Some select.
(** c:13-58 *)
Definition new_mapper (bit_count : nat) (bits : list N) : option mapper :=
  rank ← build_rank bit_count bits;
  select ← build_select rank (default 0 (last rank));
  Some (mkMapper bits bit_count rank select).
(** h:16 and h:50, the default constructors *)
Definition empty_mapper : mapper := mkMapper [] 0 [] [].

(** h:33-36 *)
Definition is_global_id_mapped (m : mapper) (g : nat) : option bool :=
  _ ← chk (bool_decide (g < global_id_count m));
  w ← bits_ m !! (g / 64);
  Some (negb (N.land w (N.shiftl 1 (N.of_nat (g mod 64))) =? 0)%N).

(** c:72-79 and c:94-101 *)
Definition rank_of (m : mapper) (g : nat) : option nat :=
  let w := g / 64 in
  let b := g / 512 in
  local ← rank_ m !! b;
  local ← for_range (b * 8) w (fun i local => x ← bits_ m !! i; Some (local + popcount x)) local;
  x ← bits_ m !! w;
  Some (local + popcount (N.land x (N.shiftl 1 (N.of_nat (g mod 64)) - 1))).
(** c:60-84. [None] inside is the default value. *)
Definition to_local_or (m : mapper) (g : nat) (invalid : option nat) : option (option nat) :=
  if decide (global_id_count m <= g) then Some invalid
  else
    w ← bits_ m !! (g / 64);
    if (N.land w (N.shiftl 1 (N.of_nat (g mod 64))) =? 0)%N then Some invalid
    else r ← rank_of m g; _ ← chk (bool_decide (r < local_id_count m)); Some (Some r).
(** c:86-106 *)
Definition to_local (m : mapper) (g : nat) : option nat :=
  _ ← chk (bool_decide (g < global_id_count m));
  b ← is_global_id_mapped m g;
  _ ← chk b;
  r ← rank_of m g; _ ← chk (bool_decide (r < local_id_count m)); Some r.

(** s:13-38: skip the lower [k] bits if they hold at most [n] set bits *)
Definition halve (k : nat) (s : N * nat * nat) : N * nat * nat :=
  let '(word, n, r) := s in
  let lower_ones := popcount (N.land word (N.ones (N.of_nat k))) in
  if decide (lower_ones <= n) then (N.shiftr word (N.of_nat k), n - lower_ones, r + k) else (word, n, r).
(** s:40-44 *)
Fixpoint drop_low (n : nat) (word : N) : N :=
  match n with O => word | S n => drop_low n (N.land word (word - 1)) end.
(** __builtin_ffsll: one plus the index of the lowest set bit, 0 for 0 *)
Definition ffs (w : N) : nat :=
  match list_find (fun b => N.testbit w (N.of_nat b) = true) (seq 0 64) with Some (b, _) => S b | None => 0 end.
(** s:8-49, uint64_bit_select *)
Definition select64 (word : N) (n : nat) : option nat :=
  _ ← chk (bool_decide (n < popcount word));
  _ ← chk (bool_decide (n < 64));
  let s := halve 32 (word, n, 0) in
  _ ← chk (bool_decide (snd (fst s) < 32));
  let s := halve 16 s in
  _ ← chk (bool_decide (snd (fst s) < 16));
  let s := halve 8 s in
  let '(word, n, r) := s in
  _ ← chk (bool_decide (n < 8));
  let x := ffs (drop_low n word) in
  _ ← chk (bool_decide (x <> 0));
  Some (r + x - 1).
(** s:51-71, uint512_bit_select; [b] is the index of the current word, [i] counts the words *)
Fixpoint select512 (fuel : nat) (data : list N) (b n r : nat) : option nat :=
  w ← data !! b;
  let lower_ones := popcount w in
  if decide (lower_ones <= n) then
    match fuel with O => None | S fuel => select512 fuel data (S b) (n - lower_ones) (r + 64) end
  else x ← select64 w n; Some (r + x).

(** s:81-83: double the step as long as the rank is small enough *)
Fixpoint gallop (fuel : nat) (count off step : nat) (rank : list nat) (n : nat) : option nat :=
  if decide (step < count) then
    r ← rank !! (off + step);
    if decide (r <= n) then match fuel with O => None | S fuel => gallop fuel count off (2 * step) rank n end
    else Some step
  else Some step.
(** s:75-98, bit_select; [off] is the number of blocks skipped so far, including those at the
    start. The pointers advance with [off]. *)
Fixpoint select_block (fuel : nat) (count off : nat) (rank : list nat) (n : nat) : option nat :=
  r ← rank !! (off + 1);
  if decide (n < r) then Some off
  else
    match fuel with
    | O => None
    | S fuel =>
        step ← gallop count count off 1 rank n;
        let step := step / 2 in
        select_block fuel (count - step) (off + step) rank n
    end.
Definition bit_select (count off : nat) (rank : list nat) (data : list N) (n : nat) : option nat :=
  _ ← chk (bool_decide (count <> 0));
  b ← select_block count count off rank n;
  r ← rank !! b;
  _ ← chk (bool_decide (r <= n));
  x ← select512 8 data (8 * b) (n - r) 0;
  Some (x + b * 512).
(** c:108-126; the code adds 512 times the start block, which is part of [off] here *)
Definition to_global (m : mapper) (l : nat) : option nat :=
  _ ← chk (bool_decide (l < local_id_count m));
  start ← select_ m !! (l / 256);
  r ← rank_ m !! start;
  _ ← chk (bool_decide (r <= l));
  g ← bit_select ((bit_count_ m + 511) / 512 - start) start (rank_ m) (bits_ m) l;
  b ← is_global_id_mapped m g;
  _ ← chk b;
  l' ← to_local m g;
  _ ← chk (bool_decide (l' = l));
  Some g.
