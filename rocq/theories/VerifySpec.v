(** What the checks of verify.cpp are meant to check, and what a first best element is. *)
From Verif Require Import Base GraphSpec.

(** [better] is the strict part of an order in which any two elements can be compared. *)
Definition strict_order {T} (better : T -> T -> bool) : Prop :=
  (forall x, better x x = false) /\
  (forall x y z, better x y = true -> better y z = true -> better x z = true) /\
  (forall x y z, better x z = true -> better x y = true \/ better y z = true).
(** The first of the best elements of [v] is at [pos]. *)
Definition first_best {T} (better : T -> T -> bool) (v : list T) (pos : nat) : Prop :=
  exists x, v !! pos = Some x /\ (forall i y, v !! i = Some y -> better y x = false) /\ (forall i y, i < pos -> v !! i = Some y -> better x y = true).

(** The interpolation points of the arcs, one list of (departure time, travel time) per arc. *)
Definition arc_points (period : nat) (points : list (nat * nat)) : Prop :=
  points <> [] /\ (forall i j p q, i <= j -> points !! i = Some p -> points !! j = Some q -> fst p <= fst q) /\ Forall (fun p => fst p < period) points.
(** The three arrays store the lists one after the other. *)
Definition stored (arcs : list (list (nat * nat))) (first departure travel : list nat) : Prop :=
  length first = S (length arcs) /\ (forall i, i <= length arcs -> first !! i = Some (length (concat (take i arcs)))) /\
  departure = fst <$> concat arcs /\ travel = snd <$> concat arcs.
Definition ipps_ok (period arc_count : nat) (first departure travel : list nat) : Prop :=
  exists arcs, length arcs = arc_count /\ Forall (arc_points period) arcs /\ stored arcs first departure travel.

Definition queries_ok (period node_count : nat) (source source_time target rank : list nat) : Prop :=
  Forall (fun x => x < node_count) source /\ Forall (fun x => x < node_count) target /\ Forall (fun x => x < period) source_time /\
  length source_time = length source /\ length target = length source /\ length rank = length source.
