(** Specification of sorting by a comparator, independent of the model. *)
From Verif Require Import Base.

(** What the C++ standard asks of a comparator (Compare, [alg.sorting]): a strict weak
    order on the elements of [l]. *)
Record strict_weak {A} (less : A -> A -> bool) (l : list A) : Prop := {
  sw_irrefl : forall x, x ∈ l -> less x x = false;
  sw_trans : forall x y z, x ∈ l -> y ∈ l -> z ∈ l -> less x y = true -> less y z = true -> less x z = true;
  sw_equiv : forall x y z, x ∈ l -> y ∈ l -> z ∈ l ->
    less x y = false -> less y x = false -> less y z = false -> less z y = false ->
    less x z = false /\ less z x = false }.

(** No element comes after a greater one. *)
Definition ordered {A} (less : A -> A -> bool) (r : list A) : Prop :=
  forall i j x y, i < j -> r !! i = Some x -> r !! j = Some y -> less y x = false.

(** What the standard promises about std::sort. Nothing is said about a comparator that
    is no strict weak order, nor about the order of equivalent elements. *)
Definition sorts (std_sort : forall A, (A -> A -> bool) -> list A -> list A) : Prop :=
  forall A (less : A -> A -> bool) l, strict_weak less l ->
    std_sort A less l ≡ₚ l /\ ordered less (std_sort A less l).

(** [p] lists the positions of [v] in an order that sorts [v]. *)
Definition order_perm {T} (less : T -> T -> bool) (v : list T) (p : list nat) : Prop :=
  p ≡ₚ seq 0 (length v) /\
  forall i j a b x y, i < j -> p !! i = Some a -> p !! j = Some b ->
    v !! a = Some x -> v !! b = Some y -> less y x = false.

(** The same, equivalent elements in the order of the input. *)
Definition stable_order_perm {T} (less : T -> T -> bool) (v : list T) (p : list nat) : Prop :=
  p ≡ₚ seq 0 (length v) /\
  forall i j a b x y, i < j -> p !! i = Some a -> p !! j = Some b ->
    v !! a = Some x -> v !! b = Some y -> less y x = false /\ (less x y = true \/ a < b).
