(** Routes in a road network, by OSM ids. *)
From Verif Require Import Base OsmGraphSpec WalkSpec.

Section route.
  Context {F : Type}.
  (** A route along arcs of a list. *)
  Inductive route (arcs : list (arc (F := F))) : nat -> list (arc (F := F)) -> nat -> Prop :=
    | route_nil x : route arcs x [] x
    | route_cons a r y : a ∈ arcs -> route arcs (x_head a) r y -> route arcs (x_tail a) (a :: r) y.
  (** Its length if arcs have a weight. *)
  Definition route_length (weight : arc (F := F) -> N) (r : list (arc (F := F))) : N := foldr (fun a s => weight a + s)%N 0%N r.
  (** [d] is the length of a shortest route from [x] to [y], capped at inf_weight. *)
  Definition shortest_route (arcs : list (arc (F := F))) (weight : arc (F := F) -> N) (x y : nat) (d : N) : Prop :=
    shortest_capped (fun L => exists r, route arcs x r y /\ L = route_length weight r) d.
End route.
