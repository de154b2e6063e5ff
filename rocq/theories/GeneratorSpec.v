(** What the programs that generate files should write. *)
From Verif Require Import Base VectorToolSpec DistanceToolSpec.

(** An argument stands for a number: it starts with a number of less than 2^64, of which the lower 32 bits count. *)
Definition given (arg : list N) (n : N) : Prop := exists x, line_number arg x /\ (- 2 ^ 64 < x < 2 ^ 64)%Z /\ Z.of_N n = (x mod 2 ^ 32)%Z.
(** The generator keeps to the range. *)
Definition draws_in_range {G} (draw : G -> N -> N * G) : Prop := forall g b, (fst (draw g b) <= b)%N.
