(** What the arc clean-up has to do, independent of its code. *)
From Verif Require Import Base WalkSpec.

(** A graph given by its arcs: equal lengths, node ids below [n]. *)
Definition arc_list (n : nat) (tail head : list nat) (w : list N) : Prop :=
  length tail = length head /\ length w = length head /\
  Forall (fun x => x < n) tail /\ Forall (fun x => x < n) head.

(** [e] is an arc from [u] to [v] of weight [w]. *)
Definition is_arc (tail head : list nat) (ws : list N) (e u v : nat) (w : N) : Prop :=
  tail !! e = Some u /\ head !! e = Some v /\ ws !! e = Some w.

(** Arcs sorted by (tail, head), no pair twice. *)
Definition strictly_sorted_pairs (tail head : list nat) : Prop :=
  forall i j u v x y, i < j -> tail !! i = Some u -> head !! i = Some v -> tail !! j = Some x -> head !! j = Some y ->
    u < x \/ (u = x /\ v < y).

(** The cleaned arcs [tail'], [head'], [w'] with input ids [ids]: one arc per connected ordered pair
    of different nodes, which is the first among the lightest parallel input arcs. *)
Record cleaned (tail head : list nat) (w : list N) (tail' head' : list nat) (w' : list N) (ids : list nat) : Prop := {
  cl_len : length tail' = length head' /\ length w' = length head' /\ length ids = length head';
  cl_sorted : strictly_sorted_pairs tail' head';
  cl_sound : forall i u v x e, is_arc tail' head' w' i u v x -> ids !! i = Some e ->
    u <> v /\ is_arc tail head w e u v x /\
    (forall e' x', is_arc tail head w e' u v x' -> (x < x')%N \/ (x = x' /\ e <= e'));
  cl_complete : forall e u v x, is_arc tail head w e u v x -> u <> v -> exists i x', is_arc tail' head' w' i u v x' }.
