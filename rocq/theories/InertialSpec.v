(** Specification of inertial flow. *)
From Verif Require Import Base UtilSpec FlowModel FlowSpec.

(** [A] has the first [side] nodes of the order [v] and [B] the last ones. *)
Definition first_last (g : fragment) (side : nat) (v : list nat) (A B : list bool) : Prop :=
  length A = fr_nodes g /\ length B = fr_nodes g /\
  (forall x, node_in A x = true <-> x ∈ take side v) /\ (forall x, node_in B x = true <-> x ∈ drop (fr_nodes g - side) v).

(** What std::nth_element and fresh memory can give: orders of all nodes and any bits. *)
Definition orders_ok (g : fragment) (orders : nat -> list nat) : Prop := forall i, i < 4 -> perm (orders i) /\ length (orders i) = fr_nodes g.
Definition garbage_ok (g : fragment) (garbage : nat -> list bool) : Prop := forall i, i < 4 -> length (garbage i) = fr_arcs g.

(** A cut with nodes on both sides. *)
Definition proper (g : fragment) (c : cut_side) : Prop :=
  length (c_side c) = fr_nodes g /\ exists x y, x < fr_nodes g /\ y < fr_nodes g /\ node_in (c_side c) x <> node_in (c_side c) y.
