(** Files with pictures of graphs. *)
From Coq Require Import ZArith Reals.
From Flocq Require Import IEEE754.Binary IEEE754.Bits.
From Verif Require Import Base TextSpec GraphSpec.
From Verif Require TextModel.
From Coq Require String. Import String.StringSyntax.

Definition ptext (s : String.string) : list N := TextModel.text s.
Arguments ptext s%string_scope.

(** A line for an arc from [x] to [y] of weight [k], in the language of the program dot. *)
Definition dot_line (x y : nat) (k : N) (l : list N) : Prop :=
  exists a b c, numeral a (N.of_nat x) /\ numeral b (N.of_nat y) /\ numeral c k /\
    l = a ++ ptext " -> " ++ b ++ ptext "[label=""" ++ c ++ ptext """];" ++ [10%N].
(** A line between two points in a file in the format SVG. *)
Definition svg_line (x1 y1 x2 y2 : list N) : list N :=
  ptext "<line x1=""" ++ x1 ++ ptext """ y1=""" ++ y1 ++ ptext """ x2=""" ++ x2 ++ ptext """ y2=""" ++ y2 ++ ptext """ style=""stroke:#000000;""/>" ++ [10%N].
Definition svg_file (lines : list (list N)) : list N :=
  (ptext "<svg xmlns=""http://www.w3.org/2000/svg"" xmlns:xlink=""http://www.w3.org/1999/xlink"" viewBox=""0 0 300 300"">" ++ [10%N]) ++
  concat lines ++ ptext "</svg>" ++ [10%N].

(** Floats that are numbers of reasonable size, not all of them the same. *)
Definition number (x : binary32) : Prop := is_finite 24 128 x = true /\ (Rabs (B2R 24 128 x) <= IZR (2 ^ 63))%R.
Definition spread (v : list binary32) : Prop :=
  Forall number v /\ exists a b, a ∈ v /\ b ∈ v /\ B2R 24 128 a <> B2R 24 128 b.
(** The smallest and the largest number. *)
Definition extent (v : list binary32) (least greatest : R) : Prop :=
  (exists a, a ∈ v /\ B2R 24 128 a = least) /\ (exists b, b ∈ v /\ B2R 24 128 b = greatest) /\
  forall x, x ∈ v -> (least <= B2R 24 128 x <= greatest)%R.
(** [v'] are the numbers [v], mapped linearly to 0 up to 300 with an error of at most [1/8192] and keeping their order. They may
    exceed 300 by at most [1/32768]. *)
Definition fitted (v v' : list binary32) : Prop :=
  length v' = length v /\ exists least greatest, extent v least greatest /\
  (forall i x y, v !! i = Some x -> v' !! i = Some y ->
    is_finite 24 128 y = true /\ (0 <= B2R 24 128 y <= 300 + / 32768)%R /\
    (Rabs (B2R 24 128 y - 300 * (B2R 24 128 x - least) / (greatest - least)) <= / 8192)%R) /\
  (forall i j x y x' y', v !! i = Some x -> v !! j = Some y -> v' !! i = Some x' -> v' !! j = Some y' ->
    (B2R 24 128 x <= B2R 24 128 y)%R -> (B2R 24 128 x' <= B2R 24 128 y')%R).
