(** Routes along the arcs of a text in the DIMACS format; arcs are triples of tail, head and weight as in GraphToolSpec. *)
From Verif Require Import Base WalkSpec.

Inductive text_route (arcs : list (nat * nat * N)) : nat -> list (nat * nat * N) -> nat -> Prop :=
  | tr_nil u : text_route arcs u [] u
  | tr_cons t h w r v : (t, h, w) ∈ arcs -> text_route arcs h r v -> text_route arcs t ((t, h, w) :: r) v.
Definition text_length (r : list (nat * nat * N)) : N := foldr (fun a s => snd a + s)%N 0%N r.
(** The length of a shortest route from [s] to [t], capped at inf_weight. *)
Definition text_distance (arcs : list (nat * nat * N)) (s t : nat) (x : N) : Prop :=
  shortest_capped (fun L => exists r, text_route arcs s r t /\ L = text_length r) x.
(** The nodes of a route that ends in [t]. *)
Definition route_nodes (r : list (nat * nat * N)) (t : nat) : list nat := ((fun a => fst (fst a)) <$> r) ++ [t].
