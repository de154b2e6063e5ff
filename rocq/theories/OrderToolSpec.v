(** What is needed of std::nth_element and of coordinates, and what the extremes of an order are. *)
From Verif Require Import Base UtilSpec.

(** A strict weak order of the elements that meet [P]. *)
Record weak_order {A} (P : A -> Prop) (less : A -> A -> bool) : Prop := {
  wo_irrefl : forall x, P x -> less x x = false;
  wo_trans : forall x y z, P x -> P y -> P z -> less x y = true -> less y z = true -> less x z = true;
  wo_split : forall x y z, P x -> P y -> P z -> less x z = true -> less x y = true \/ less y z = true }.

(** The C++ standard about std::nth_element: the same elements, none before position [k] is larger than one from there on. *)
Definition nth_element_ok (nth_element : (nat -> nat -> bool) -> nat -> list nat -> list nat) : Prop :=
  forall less k l, weak_order (fun x => x ∈ l) less -> k <= length l ->
    nth_element less k l ≡ₚ l /\
    forall i j x y, i < k -> k <= j -> nth_element less k l !! i = Some x -> nth_element less k l !! j = Some y -> less y x = false.

(** Coordinates that can be compared: the two, their sum and their difference belong to some numbers that [flt] orders. *)
Definition comparable {F} (fplus fminus : F -> F -> F) (flt : F -> F -> bool) (latitude longitude : list F) : Prop :=
  exists P, weak_order P flt /\
    forall i a b, latitude !! i = Some a -> longitude !! i = Some b -> P a /\ P b /\ P (fplus a b) /\ P (fminus a b).

(** The first [side] elements of [v] are smallest ones and the last [side] elements are largest ones. *)
Definition extremes (less : nat -> nat -> bool) (side : nat) (v : list nat) : Prop :=
  (forall x y, x ∈ take side v -> y ∈ drop side v -> less y x = false) /\
  (forall x y, x ∈ take (length v - side) v -> y ∈ drop (length v - side) v -> less y x = false).
