(** * Model of the vantage-point tree

    /repo/src/geo_position_to_node.cpp and
    /repo/include/routingkit/geo_position_to_node.h.

    What is abstracted:
    - A position ([GeoPositionToNode::PointPosition], a pair of floats) is an
      element of an arbitrary type [Pos].
    - A distance (a float in meter) is an element of an arbitrary type [D] with
      a comparison, an addition and a subtraction, so that the theorems cover
      exact real arithmetic as well as the integers.  Rounding is not modelled.
    - [construct_tree] recomputes the distances with a vectorised formula
      (lines 48-106) that is numerically slightly different from [geo_dist];
      the model uses the same function [dist] for both, as the commented out
      "slower but simpler" loop in lines 44-46 does.
    - [std::nth_element] is a parameter; the theorems hold for every function
      that satisfies its contract. *)
From stdpp Require Import list numbers.
From Verif Require Import Base.

(** The operations on distances that the code uses: [<=] and [-] of floats, and
    the [+] that is needed to state the triangle inequality. *)
Record dist_ops := DistOps {
  dD : Type;
  dle : dD -> dD -> bool;
  dadd : dD -> dD -> dD;
  dsub : dD -> dD -> dD
}.

(** [a < b] for totally ordered distances (no NaN). *)
Definition dlt (o : dist_ops) (a b : dD o) : bool := negb (dle o b a).

(** [struct PointData], geo_position_to_node.cpp:19-23. *)
Record point_data (Pos D : Type) := PointData {
  pd_pos : Pos;
  pd_id : nat;
  pd_dist : D
}.
Arguments PointData {_ _}. Arguments pd_pos {_ _}.
Arguments pd_id {_ _}. Arguments pd_dist {_ _}.

(** [max_points_per_leaf], geo_position_to_node.cpp:25. *)
Definition max_points_per_leaf : nat := 8.

(** [class GeoPositionToNode], geo_position_to_node.h:36-37. *)
Record geo_tree (Pos : Type) := GeoTree {
  point_position : list Pos;
  point_id : list nat
}.
Arguments GeoTree {_}. Arguments point_position {_}. Arguments point_id {_}.

Section geo.
Context {Pos : Type} (o : dist_ops) (dist : Pos -> Pos -> dD o).
Context (nth_element : nat -> list (point_data Pos (dD o)) -> list (point_data Pos (dD o))).

Local Notation PD := (point_data Pos (dD o)).

(** Lines 44-46 (and 48-106, see above): one iteration of the loop that makes
    [distance_to_pivot] relative to [d[mid]]. *)
Definition set_distance (mid i : nat) (d : list PD) : option (list PD) :=
  m ← d !! mid; p ← d !! i;
  wr d i (PointData (pd_pos p) (pd_id p) (dist (pd_pos m) (pd_pos p))).

(** [construct_tree], geo_position_to_node.cpp:27-110.  [fuel] bounds the depth
    of the recursion; running out of it is [None].  [nth_element k l] stands for
    [std::nth_element(l.begin(), l.begin()+k, l.end(), by distance_to_pivot)]. *)
Fixpoint construct_tree (fuel : nat) (d : list PD) (b e : nat) : option (list PD) :=
  match fuel with
  | O => None
  | S fuel =>
    if decide (max_points_per_leaf < e - b) then
      let mid := b + (e - b) / 2 in
      d ← construct_tree fuel
            (take (b + 1) d
             ++ nth_element (mid - (b + 1)) (take (e - (b + 1)) (drop (b + 1) d))
             ++ drop e d) b mid;
      d ← for_range mid e (set_distance mid) d;
      construct_tree fuel d mid e
    else Some d
  end.

(** The constructor, geo_position_to_node.cpp:113-130.  The loop 120-124 fills
    [data] from left to right; [data[0]] is written by its first iteration, which
    is why every distance is relative to the first position. *)
Definition geo_build (ps : list Pos) : option (geo_tree Pos) :=
  let data := match ps with
              | [] => []
              | p0 :: _ => imap (fun i p => PointData p i (dist p0 p)) ps
              end in
  d ← construct_tree (S (length ps)) data 0 (length ps);
  Some (GeoTree (pd_pos <$> d) (pd_id <$> d)).

(** [NearestNeighborhoodQueryResult], geo_position_to_node.h:20-24; [None] is
    [invalid_id]. *)
Definition nn_result : Type := option nat * dD o.

(** Loop body 142-146. *)
Definition nn_leaf (g : geo_tree Pos) (q : Pos) (i : nat) (cur : nn_result) : option nn_result :=
  p ← point_position g !! i;
  let distance := dist q p in
  if dle o distance cur.2 then
    id ← point_id g !! i; Some (Some id, distance)
  else Some cur.

(** [nearest_neighbor_recursion], geo_position_to_node.cpp:135-176. *)
Fixpoint nn_recursion (fuel : nat) (g : geo_tree Pos) (b e : nat) (q : Pos)
    (cur : nn_result) : option nn_result :=
  match fuel with
  | O => None
  | S fuel =>
    if decide (e - b <= max_points_per_leaf) then
      for_range b e (nn_leaf g q) cur
    else
      pivot ← point_position g !! b;
      let mid := b + (e - b) / 2 in
      boundary ← point_position g !! mid;
      let pqd := dist pivot q in
      let pbd := dist pivot boundary in
      if dle o pbd pqd then
        cur ← nn_recursion fuel g mid e q cur;
        if dlt o (dsub o pqd pbd) cur.2 then nn_recursion fuel g b mid q cur else Some cur
      else
        cur ← nn_recursion fuel g b mid q cur;
        if dlt o (dsub o pbd pqd) cur.2 then nn_recursion fuel g mid e q cur else Some cur
  end.

(** [find_nearest_neighbor_within_radius], geo_position_to_node.cpp:218-223. *)
Definition find_nearest (g : geo_tree Pos) (q : Pos) (radius : dD o) : option nn_result :=
  let n := length (point_position g) in
  nn_recursion (S n) g 0 n q (None, radius).

(** Loop body 187-191. *)
Definition fa_leaf (g : geo_tree Pos) (q : Pos) (radius : dD o) (i : nat)
    (res : list (nat * dD o)) : option (list (nat * dD o)) :=
  p ← point_position g !! i;
  let distance := dist q p in
  if dle o distance radius then
    id ← point_id g !! i; Some (res ++ [(id, distance)])
  else Some res.

(** [find_all_nodes_recursion], geo_position_to_node.cpp:179-215. *)
Fixpoint fa_recursion (fuel : nat) (g : geo_tree Pos) (b e : nat) (q : Pos)
    (radius : dD o) (res : list (nat * dD o)) : option (list (nat * dD o)) :=
  match fuel with
  | O => None
  | S fuel =>
    if decide (e - b <= max_points_per_leaf) then
      for_range b e (fa_leaf g q radius) res
    else
      pivot ← point_position g !! b;
      let mid := b + (e - b) / 2 in
      boundary ← point_position g !! mid;
      let pqd := dist pivot q in
      let pbd := dist pivot boundary in
      res ← (if dle o (dsub o pqd pbd) radius
             then fa_recursion fuel g b mid q radius res else Some res);
      if dle o (dsub o pbd pqd) radius
      then fa_recursion fuel g mid e q radius res else Some res
  end.

(** [find_all_nodes_within_radius], geo_position_to_node.cpp:225-230. *)
Definition find_all (g : geo_tree Pos) (q : Pos) (radius : dD o) : option (list (nat * dD o)) :=
  let n := length (point_position g) in
  fa_recursion (S n) g 0 n q radius [].

End geo.
