(** * Specification for strongly connected components (C18) *)
From stdpp Require Import relations.
From Verif Require Import Base GraphSpec.

(** There is an arc from [x] to [y]. *)
Definition edge (fo head : list nat) (x y : nat) : Prop := exists e, arc_from_to fo head x y e.

(** Reachability by zero or more arcs. *)
Definition reach (fo head : list nat) : nat -> nat -> Prop := rtc (edge fo head).

(** [co] numbers the strongly connected components of the graph with nodes
    [0..n-1] by [0..cc-1], every number being used, such that an arc never leads
    to a component with a larger number (reverse topological order). *)
Record scc_spec (n : nat) (fo head co : list nat) (cc : nat) : Prop := {
  sc_len : length co = n;
  sc_same : forall x y c d, co !! x = Some c -> co !! y = Some d ->
    (c = d <-> reach fo head x y /\ reach fo head y x);
  sc_range : forall c, (exists x, co !! x = Some c) <-> c < cc;
  sc_topo : forall x y c d, edge fo head x y -> co !! x = Some c -> co !! y = Some d -> d <= c
}.

(** The strongly connected component of [x], as a list of nodes without
    repetition. *)
Definition is_component (n : nat) (fo head : list nat) (x : nat) (C : list nat) : Prop :=
  NoDup C /\ forall y, y ∈ C <-> y < n /\ reach fo head x y /\ reach fo head y x.

(** [res] marks exactly one component, and no component has more nodes. *)
Definition largest_spec (n : nat) (fo head : list nat) (res : list bool) : Prop :=
  length res = n /\
  (n <> 0 -> exists x C, x < n /\ is_component n fo head x C /\
    (forall y, res !! y = Some true <-> y ∈ C) /\
    forall z D, z < n -> is_component n fo head z D -> length D <= length C).
