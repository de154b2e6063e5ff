(** Model of src/compare_vector.cpp ([c:]) for float64, and with the 32-bit numbers in which it counts, for vectors of any size. [None] is a loop that does not end. *)
From Verif Require Import Base ProtobufModel VectorIoModel VectorToolModel.

(** c:128-129: a double by its bits: the sign is bit 63, then eleven bits of exponent; if all of them are set and the fraction is not zero the value is
    not a number. *)
Definition double_nan (b : N) : bool := (2 ^ 63 - 2 ^ 52 <? b mod 2 ^ 63)%N.
(** c:128-129 *)
Definition double_key (b : N) : Z := if (b <? 2 ^ 63)%N then Z.of_N b else (- Z.of_N (b - 2 ^ 63))%Z.
(** < for double, c:26, 28 *)
Definition double_lt (a b : N) : bool := negb (double_nan a) && negb (double_nan b) && (double_key a <? double_key b)%Z.
(** == for double, c:30 *)
Definition double_eq (a b : N) : bool := negb (double_nan a) && negb (double_nan b) && (double_key a =? double_key b)%Z.

(** unsigned, c:20, 21, 23, 25 *)
Definition unsigned_of (x : N) : N := (x mod 2 ^ 32)%N.
(** (unsigned)-1, c:23, 30 *)
Definition no_index : N := (2 ^ 32 - 1)%N.
(** c:25-32. The index is compared to the size as a 64-bit number. *)
Fixpoint wide_loop {A} (lt eq : A -> A -> bool) (v1 v2 : list A) (fuel : nat) (i c1 c2 first : N) : option (N * N * N) :=
  match fuel with
  | O => None
  | S fuel =>
      if (i <? N.of_nat (length v1))%N then
        x ← v1 !! N.to_nat i; y ← v2 !! N.to_nat i;
        let c1 := if lt x y then unsigned_of (c1 + 1) else c1 in
        let c2 := if lt y x then unsigned_of (c2 + 1) else c2 in
        let first := if negb (eq x y) && (first =? no_index)%N then i else first in
        wide_loop lt eq v1 v2 fuel (unsigned_of (i + 1)) c1 c2 first
      else Some (c1, c2, first)
  end.
(** c:15-48; the subtraction of c:41 is done with 64 bits, the addition of c:42 with 32 bits. *)
Definition compare_wide {A} (lt eq : A -> A -> bool) (fuel : nat) (v1 v2 : list A) : option report :=
  if length v1 <? length v2 then Some (FirstShorter (length v1) (length v2)) else
  if length v2 <? length v1 then Some (SecondShorter (length v2) (length v1)) else
  '(c1, c2, first) ← wide_loop lt eq v1 v2 fuel 0 0 0 no_index;
  Some (if (c1 =? 0)%N && (c2 =? 0)%N then Same (length v1)
        else Differ (N.to_nat c1) (N.to_nat c2) (length v1 - N.to_nat c1 - N.to_nat c2) (N.to_nat (unsigned_of (c1 + c2))) (length v1)
               (if (first =? no_index)%N then None else Some (N.to_nat first))).
(** c:11-50 for float and double, with a bound for the number of steps. *)
Definition compare_float_files (fuel : nat) (file1 file2 : list N) : result (option report) :=
  match load_vector 4 le_word file1, load_vector 4 le_word file2 with
  | Ret v1, Ret v2 => Ret (compare_wide float_lt float_eq fuel v1 v2)
  | _, _ => Throw
  end.
(** c:128-129 *)
Definition compare_double_files (fuel : nat) (file1 file2 : list N) : result (option report) :=
  match load_vector 8 le_word file1, load_vector 8 le_word file2 with
  | Ret v1, Ret v2 => Ret (compare_wide double_lt double_eq fuel v1 v2)
  | _, _ => Throw
  end.
(** c:110-125 *)
Definition compare_int_files (t : itype) (fuel : nat) (file1 file2 : list N) : result (option report) :=
  match load_vector (i_bytes t) (dec_int t) file1, load_vector (i_bytes t) (dec_int t) file2 with
  | Ret v1, Ret v2 => Ret (compare_wide Z.ltb Z.eqb fuel v1 v2)
  | _, _ => Throw
  end.
(** c:61-66: the loop for strings *)
Fixpoint wide_strings (v1 v2 : list (list N)) (fuel : nat) (i equal : N) : option N :=
  match fuel with
  | O => None
  | S fuel =>
      if (i <? N.of_nat (length v1))%N then
        x ← v1 !! N.to_nat i; y ← v2 !! N.to_nat i;
        wide_strings v1 v2 fuel (unsigned_of (i + 1)) (if bool_decide (x = y) then unsigned_of (equal + 1) else equal)
      else Some equal
  end.
(** c:56-79; the comparison of c:68 and the subtraction of c:74 are done with 64 bits. *)
Definition compare_strings_wide (fuel : nat) (v1 v2 : list (list N)) : option report :=
  if length v1 <? length v2 then Some (FirstShorter (length v1) (length v2)) else
  if length v2 <? length v1 then Some (SecondShorter (length v2) (length v1)) else
  equal ← wide_strings v1 v2 fuel 0 0;
  Some (if (equal =? N.of_nat (length v1))%N then Same (length v1) else DifferStrings (N.to_nat equal) (length v1 - N.to_nat equal) (length v1)).
