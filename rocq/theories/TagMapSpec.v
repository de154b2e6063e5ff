(** The meaning of a tag list: the first pair with the key. *)
From Verif Require Import Base TagMapModel.
Fixpoint first_value {V} (kv : list (cstring * V)) (key : cstring) : option V :=
  match kv with [] => None | (k, v) :: kv => if decide (key = k) then Some v else first_value kv key end.
