(** Numbers and strings as text and as bytes, and what a comparison of two vectors says. *)
From Verif Require Import Base TextSpec VectorToolModel.

(** A number of [k] bytes, the lowest first. *)
Fixpoint number (bs : list N) : Z := match bs with [] => 0%Z | b :: bs => (Z.of_N b + 256 * number bs)%Z end.
(** The bytes are those of [x] in two's complement. *)
Definition represents (k : nat) (bs : list N) (x : Z) : Prop :=
  length bs = k /\ Forall (fun b => b < 256)%N bs /\ ((number bs - x) mod 256 ^ Z.of_nat k = 0)%Z.
Definition int_file (k : nat) (xs : list Z) (file : list N) : Prop :=
  exists chunks, file = concat chunks /\ Forall2 (represents k) chunks xs.
(** The types of the programs, and the values they have. *)
Definition std_type (t : itype) : Prop := t ∈ [int8; uint8; int16; uint16; int32; uint32; int64; uint64].
Definition in_type (t : itype) (x : Z) : Prop :=
  let bits := (8 * Z.of_nat (i_bytes t))%Z in
  if i_signed t then (- 2 ^ (bits - 1) <= x < 2 ^ (bits - 1))%Z else (0 <= x < 2 ^ bits)%Z.

(** A decimal number with an optional sign; 45 is the character -, 43 the character +. *)
Inductive signed_numeral : list N -> Z -> Prop :=
  | sn_plain ds x : numeral ds x -> signed_numeral ds (Z.of_N x)
  | sn_plus ds x : numeral ds x -> signed_numeral (43%N :: ds) (Z.of_N x)
  | sn_minus ds x : numeral ds x -> signed_numeral (45%N :: ds) (- Z.of_N x).
Definition white (c : N) : Prop := (c = 32 \/ 9 <= c <= 13)%N.
(** A line that starts with the number [x]; whatever follows does not belong to the number. *)
Definition line_number (l : list N) (x : Z) : Prop :=
  exists w s rest, l = w ++ s ++ rest /\ Forall white w /\ signed_numeral s x /\ match rest with [] => True | c :: _ => (~ 48 <= c <= 57)%N end.

(** All occurrences of a text, from left to right, are replaced by another. *)
Inductive replaced (search rep : list N) : list N -> list N -> Prop :=
  | rp_nil : replaced search rep [] []
  | rp_hit s t : replaced search rep s t -> replaced search rep (search ++ s) (rep ++ t)
  | rp_skip c s t : ~ search `prefix_of` (c :: s) -> replaced search rep s t -> replaced search rep (c :: s) (c :: t).
Definition contains (sub s : list N) : Prop := exists a b, s = a ++ sub ++ b.
(** The escaped form of a string: backslash (92) and newline (10) become two characters, 110 is the character n. *)
Inductive escaped : list N -> list N -> Prop :=
  | es_nil : escaped [] []
  | es_backslash s t : escaped s t -> escaped (92%N :: s) (92%N :: 92%N :: t)
  | es_newline s t : escaped s t -> escaped (10%N :: s) (92%N :: 110%N :: t)
  | es_other c s t : c <> 92%N -> c <> 10%N -> escaped s t -> escaped (c :: s) (c :: t).

(** [c] numbers below [n] have the property. *)
Definition counts (P : nat -> Prop) (n c : nat) : Prop := exists l, NoDup l /\ length l = c /\ forall i, i ∈ l <-> i < n /\ P i.
(** At index [i] the first vector has [x] and the second has [y] with [R x y]. *)
Definition at_index {A} (R : A -> A -> Prop) (v1 v2 : list A) (i : nat) : Prop := exists x y, v1 !! i = Some x /\ v2 !! i = Some y /\ R x y.
Definition describes {A} (lt : A -> A -> Prop) (v1 v2 : list A) (r : report) : Prop :=
  match r with
  | FirstShorter n1 n2 => n1 = length v1 /\ n2 = length v2 /\ n1 < n2
  | SecondShorter n2 n1 => n1 = length v1 /\ n2 = length v2 /\ n2 < n1
  | Same n => v1 = v2 /\ n = length v1
  | Differ c1 c2 same diff n first =>
      v1 <> v2 /\ length v1 = n /\ length v2 = n /\
      counts (at_index lt v1 v2) n c1 /\ counts (at_index (flip lt) v1 v2) n c2 /\
      counts (at_index eq v1 v2) n same /\ counts (at_index (fun x y => x <> y) v1 v2) n diff /\
      exists i, first = Some i /\ at_index (fun x y => x <> y) v1 v2 i /\ forall j, j < i -> at_index eq v1 v2 j
  | DifferStrings same diff n =>
      v1 <> v2 /\ length v1 = n /\ length v2 = n /\ counts (at_index eq v1 v2) n same /\ counts (at_index (fun x y => x <> y) v1 v2) n diff
  end.
(** The value of a float that is a number, in multiples of 2^-149: with sign bit 31, eight bits of exponent and 23 bits of fraction. Infinity
    counts as the next value after the largest. *)
Definition magnitude (b : N) : Z :=
  let e := Z.of_N (b / 2 ^ 23) in let f := Z.of_N (b mod 2 ^ 23) in
  if (e =? 0)%Z then f else ((2 ^ 23 + f) * 2 ^ (e - 1))%Z.
Definition float_value (b : N) : Z := if (b <? 2 ^ 31)%N then magnitude b else (- magnitude (b - 2 ^ 31))%Z.
Definition is_number (b : N) : Prop := (b < 2 ^ 32 /\ b mod 2 ^ 31 <= 2 ^ 31 - 2 ^ 23)%N.
