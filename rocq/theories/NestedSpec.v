(** Specification of separator decompositions (nested_dissection.h). *)
From stdpp Require Import relations.
From Verif Require Import Base FlowModel FlowSpec NestedModel.

(** There is an arc from the node with the global id [u] to that with the global id [v]. *)
Definition adjacent (g : fragment) (u v : nat) : Prop :=
  exists a x y, fr_tail g !! a = Some x /\ fr_head g !! a = Some y /\ fr_global g !! x = Some u /\ fr_global g !! y = Some v.
(** Arcs and paths by local ids *)
Definition arc (g : fragment) (x y : nat) : Prop := exists a, fr_tail g !! a = Some x /\ fr_head g !! a = Some y.
Definition connected (g : fragment) : Prop := forall x y, x < fr_nodes g -> y < fr_nodes g -> rtc (arc g) x y.

(** Trees of separators: a forest is empty or a node, its children and the siblings that follow. Every node has a range of positions
    in the order: those of its separator. *)
Inductive forest := FNil | FNode (first last : nat) (children siblings : forest).
Definition fnil (f : forest) : bool := match f with FNil => true | _ => false end.
Fixpoint fsize (f : forest) : nat := match f with FNil => 0 | FNode _ _ cs ss => 1 + fsize cs + fsize ss end.
(** A forest as an array that starts with the index [i], in preorder; zero stands for no child and no sibling. *)
Fixpoint layout (f : forest) (i : nat) : list tnode :=
  match f with
  | FNil => []
  | FNode a b cs ss =>
    mkNode (if fnil cs then 0 else i + 1) (if fnil ss then 0 else i + 1 + fsize cs) a b :: layout cs (i + 1) ++ layout ss (i + 1 + fsize cs)
  end.

(** The forest [f] decomposes the positions from [lo] to [hi]: the trees have one interval after the other; inside an interval the
    trees of the children come first and the own separator last; positions of different children are not adjacent. *)
Fixpoint decomposes (adj : nat -> nat -> Prop) (f : forest) (lo hi : nat) : Prop :=
  match f with
  | FNil => lo = hi
  | FNode a b cs ss =>
    decomposes adj cs lo a /\ a <= b /\ decomposes adj ss b hi /\
    (forall p q, lo <= p < b -> b <= q < hi -> ~ adj p q /\ ~ adj q p)
  end.

(** Two positions of an order are adjacent. *)
Definition adjacent_positions (g : fragment) (order : list nat) (p q : nat) : Prop :=
  exists u v, order !! p = Some u /\ order !! q = Some v /\ adjacent g u v.

(** [d] is a decomposition of the graph [g]. *)
Definition is_decomposition (g : fragment) (d : decomp) : Prop :=
  d_order d ≡ₚ fr_global g /\
  exists f, d_tree d = layout f 0 /\ (exists a cs, f = FNode a (fr_nodes g) cs FNil) /\
    decomposes (adjacent_positions g (d_order d)) f 0 (fr_nodes g).

(** A function object that makes progress on the parts of [g]: it marks a node of every connected graph with two or more nodes. *)
Definition makes_progress {St} (g : fragment) (compute_separator : St -> fragment -> option (St * list bool)) : Prop :=
  forall st part, fragment_ok part -> connected part -> 2 <= fr_nodes part -> NoDup (fr_global part) ->
    (forall u, u ∈ fr_global part -> u ∈ fr_global g) ->
    exists st' sep, compute_separator st part = Some (st', sep) /\ length sep = fr_nodes part /\ exists x, node_in sep x = true.
