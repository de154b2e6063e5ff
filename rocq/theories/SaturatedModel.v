(** Model of SaturatedWeightAddition, include/routingkit/contraction_hierarchy.h 222-225, 284-308. *)
From Verif Require Import Base.
Open Scope Z_scope.

Definition uint_max : Z := 4294967295.
Definition int_max : Z := 2147483647.
Definition int_min : Z := -2147483648.
(** Unsigned arithmetic wraps; signed overflow is undefined ([None]). *)
Definition uadd (a b : Z) : Z := (a + b) mod (uint_max + 1).
Definition usub (a b : Z) : Z := (a - b) mod (uint_max + 1).
Definition sint (a : Z) : option Z := if bool_decide (int_min <= a <= int_max) then Some a else None.

(** 284-292; inf_weight is 2^31-1 (constants.h) *)
Definition sat_unsigned (asserts : bool) (l r : Z) : option Z :=
  if asserts && negb (bool_decide (l <= int_max) && bool_decide (r <= int_max)) then None
  else if bool_decide (usub int_max r <= l) then Some int_max else Some (uadd l r).
(** 294-306 *)
Definition sat_signed (l r : Z) : option Z :=
  if bool_decide (0 < l) then
    d ← sint (int_max - l);
    if bool_decide (d < r) then Some int_max else sint (l + r)
  else
    d ← sint (int_min - l);
    if bool_decide (r < d) then Some int_min else sint (l + r).
