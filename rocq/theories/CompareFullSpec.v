(** What compare_vector says about vectors with elements that cannot be compared. *)
From Verif Require Import Base VectorToolModel VectorToolSpec.

(** The value of a double that is a number, in multiples of 2^-1074: with sign bit 63, eleven bits of exponent and 52 bits of fraction. Infinity counts
    as the next value after the largest. *)
Definition double_magnitude (b : N) : Z :=
  let e := Z.of_N (b / 2 ^ 52) in let f := Z.of_N (b mod 2 ^ 52) in
  if (e =? 0)%Z then f else ((2 ^ 52 + f) * 2 ^ (e - 1))%Z.
Definition double_value (b : N) : Z := if (b <? 2 ^ 63)%N then double_magnitude b else (- double_magnitude (b - 2 ^ 63))%Z.
Definition is_double (b : N) : Prop := (b < 2 ^ 64 /\ b mod 2 ^ 63 <= 2 ^ 63 - 2 ^ 52)%N.

(** The order of numbers, where something that is not a number is neither less than, nor equal to, nor greater than anything. *)
Definition below (number : N -> Prop) (value : N -> Z) (x y : N) : Prop := number x /\ number y /\ (value x < value y)%Z.
Definition same (number : N -> Prop) (value : N -> Z) (x y : N) : Prop := number x /\ number y /\ value x = value y.
(** [Same] means only that nowhere one is less than the other; the elements that are said to be the same are those that are neither less nor greater; and the first index is
    the first at which the elements are not equal. *)
Definition describes_any {A} (lt sm : A -> A -> Prop) (v1 v2 : list A) (r : report) : Prop :=
  match r with
  | FirstShorter n1 n2 => n1 = length v1 /\ n2 = length v2 /\ n1 < n2
  | SecondShorter n2 n1 => n1 = length v1 /\ n2 = length v2 /\ n2 < n1
  | Same n => length v1 = n /\ length v2 = n /\ forall i, ~ at_index lt v1 v2 i /\ ~ at_index (flip lt) v1 v2 i
  | Differ c1 c2 s d n first =>
      length v1 = n /\ length v2 = n /\ 0 < c1 + c2 /\
      counts (at_index lt v1 v2) n c1 /\ counts (at_index (flip lt) v1 v2) n c2 /\
      counts (at_index (fun x y => ~ lt x y /\ ~ lt y x) v1 v2) n s /\ counts (at_index (fun x y => lt x y \/ lt y x) v1 v2) n d /\
      exists i, first = Some i /\ at_index (fun x y => ~ sm x y) v1 v2 i /\ forall j, j < i -> at_index sm v1 v2 j
  | DifferStrings _ _ _ => False
  end.
