(** * Specification for the vantage-point tree (C34)

    Independent of the tree: distances, the contract of [std::nth_element], and
    what the two queries have to return, stated on the input positions. *)
From stdpp Require Import list numbers.
From Verif Require Import GeoTreeModel.

(** Distances are totally ordered, addition is monotone and [a - b <= c] means
    [a <= b + c].  The reals, the rationals and the integers satisfy this. *)
Record dist_laws (o : dist_ops) : Prop := {
  dle_trans : forall a b c, dle o a b = true -> dle o b c = true -> dle o a c = true;
  dle_total : forall a b, dle o a b = true \/ dle o b a = true;
  dadd_mono : forall a b c d, dle o a b = true -> dle o c d = true ->
                dle o (dadd o a c) (dadd o b d) = true;
  dsub_le : forall a b c, dle o (dsub o a b) c = true <-> dle o a (dadd o b c) = true
}.

(** A (pseudo-)metric. *)
Record metric {Pos : Type} (o : dist_ops) (dist : Pos -> Pos -> dD o) : Prop := {
  dist_sym : forall x y, dist x y = dist y x;
  dist_self : forall x y, dle o (dist x x) (dist x y) = true;
  dist_triangle : forall x y z, dle o (dist x z) (dadd o (dist x y) (dist y z)) = true
}.

(** The contract of [std::nth_element(first, first+k, last)] with the comparator
    of lines 37-39: the range is permuted and no element from position [k] on is
    smaller than an element before position [k], and none after [k] is smaller
    than the one at [k]. *)
Definition nth_element_ok {Pos : Type} (o : dist_ops)
    (f : nat -> list (point_data Pos (dD o)) -> list (point_data Pos (dD o))) : Prop :=
  forall k l, k < length l ->
    Permutation (f k l) l /\
    forall i j x y, f k l !! i = Some x -> f k l !! j = Some y -> i <= k <= j ->
      dle o (pd_dist x) (pd_dist y) = true.

(** Point [i] has distance [d] to the query position. *)
Definition at_distance {Pos D : Type} (dist : Pos -> Pos -> D) (ps : list Pos) (q : Pos)
    (i : nat) (d : D) : Prop :=
  exists p, ps !! i = Some p /\ d = dist q p.

(** The result that the documentation promises: the closest point if there is
    one within the radius, otherwise [invalid_id]. *)
Definition nearest_spec {Pos : Type} (o : dist_ops) (dist : Pos -> Pos -> dD o)
    (ps : list Pos) (q : Pos) (radius : dD o) (r : option nat * dD o) : Prop :=
  match r.1 with
  | Some i => at_distance dist ps q i r.2 /\ dle o r.2 radius = true /\
              forall j d, at_distance dist ps q j d -> dle o r.2 d = true
  | None => forall j d, at_distance dist ps q j d -> dle o d radius = false
  end.
