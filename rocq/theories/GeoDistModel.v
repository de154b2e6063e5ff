(** * Model of the distance between geographic positions

    /repo/include/routingkit/geo_dist.h and the parts of
    /repo/src/geo_position_to_node.cpp that GeoTreeModel leaves abstract.

    What is abstracted: [float] and [double] are the real numbers, [cos], [sin],
    [acos], [sqrt] and [atan2] are the exact functions.  Rounding, infinities and
    NaN are not modelled.  The literals in the code are exact decimal numbers. *)
From Coq Require Import Reals.
From stdpp Require Import list numbers.
From Verif Require Import Base GeoTreeModel.
Local Open Scope R_scope.

(** geo_dist.h:91, the constant for the conversion of degrees into radians. *)
Definition pi_div_180 : R := 3.14159265359 / 180.0.

(** geo_dist.h:92, in meter. *)
Definition earth_radius : R := 6371000.785.

(** [geo_dist], geo_dist.h:9-121.  The array [vec] of lines 99-104 has a fourth
    entry that is never read; the loop 107-108 replaces every entry [x] by
    [cos(x*pi_div_180)]. *)
Definition geo_dist (lat_a lon_a lat_b lon_b : R) : R :=
  let vec0 := cos ((lat_a - lat_b) * pi_div_180) in
  let vec1 := cos ((lat_a + lat_b) * pi_div_180) in
  let vec2 := cos ((lon_a - lon_b) * pi_div_180) in
  let len := (vec0 + vec1) * vec2 + vec0 - vec1 in
  let len := len * 0.5 in
  let len := acos len in
  len * earth_radius.

(** [GeoPositionToNode::PointPosition], geo_position_to_node.h:32-35: latitude
    and longitude in degrees. *)
Notation position := (R * R)%type.

(** [compute_distance], geo_position_to_node.cpp:15-17. *)
Definition compute_distance (x y : position) : R := geo_dist x.1 x.2 y.1 y.2.

(** The comparison, addition and subtraction of distances, see [dist_ops]. *)
Definition r_ops : dist_ops :=
  DistOps R (fun a b => if Rle_dec a b then true else false) Rplus Rminus.

(** [atan2] of the C library, called in geo_position_to_node.cpp:101. *)
Definition atan2 (y x : R) : R :=
  if Rlt_dec 0 x then atan (y / x)
  else if Rlt_dec x 0 then
    if Rle_dec 0 y then atan (y / x) + PI else atan (y / x) - PI
  else if Rlt_dec 0 y then PI / 2
  else if Rlt_dec y 0 then - (PI / 2)
  else 0.

(** geo_position_to_node.cpp:50 and 52. *)
Definition tree_pi : R := 3.14159265359.
Definition inv_180 : R := 1.0 / 180.

(** geo_position_to_node.cpp:51. *)
Definition tree_R : R := 6371000.785.

(** geo_position_to_node.cpp:57-60 and 86-89. *)
Definition to_radian (x : R) : R := x * inv_180 * tree_pi.

(** geo_position_to_node.cpp:86-94: the value [a_[j]] of one lane; [a_lat] and
    [a_lon] are in radians already, [b] is not. *)
Definition lane (a_lat a_lon : R) (b : position) : R :=
  let b_lat := to_radian b.1 in
  let b_lon := to_radian b.2 in
  let dlat := b_lat - a_lat in
  let dlon := b_lon - a_lon in
  sin (dlat * 0.5) * sin (dlat * 0.5)
  + sin (dlon * 0.5) * sin (dlon * 0.5) * cos a_lat * cos b_lat.

(** geo_position_to_node.cpp:100-101. *)
Definition lane_distance (a : R) : R :=
  let c := 2 * atan2 (R_sqrt.sqrt a) (R_sqrt.sqrt (1 - a)) in
  tree_R * c.

(** geo_position_to_node.cpp:62. *)
Definition vector_width : nat := 16%nat.

Local Notation PD := (point_data position R).

(** The body of the loop over blocks, geo_position_to_node.cpp:65-103: the
    positions are copied (lines 73-76), unused lanes are filled with zeros
    (78-81), all lanes are computed (86-95), and the used ones are written. *)
Definition vector_block (e : nat) (a_lat a_lon : R) (i : nat) (d : list PD) : option (list PD) :=
  let element_count := if decide (e - i < vector_width)%nat then (e - i)%nat else vector_width in
  b ← mapM (fun j => p ← d !! (i + j)%nat; Some (pd_pos p)) (seq 0 element_count);
  let b := b ++ replicate (vector_width - element_count) (0, 0) in
  let a_ := map (lane a_lat a_lon) b in
  for_range 0 element_count (fun j d =>
    a ← a_ !! j;
    p ← d !! (i + j)%nat;
    wr d (i + j)%nat (PointData (pd_pos p) (pd_id p) (lane_distance a))) d.

(** The loop over blocks, geo_position_to_node.cpp:63-104.  [fuel] bounds the
    number of iterations; running out of it is [None]. *)
Fixpoint vector_blocks (fuel e : nat) (a_lat a_lon : R) (i : nat) (d : list PD) : option (list PD) :=
  if decide (i < e)%nat then
    match fuel with
    | O => None
    | S fuel =>
      d ← vector_block e a_lat a_lon i d;
      vector_blocks fuel e a_lat a_lon (i + vector_width) d
    end
  else Some d.

(** geo_position_to_node.cpp:49-106: the distances to [d[mid]]. *)
Definition vector_distances (mid e : nat) (d : list PD) : option (list PD) :=
  m ← d !! mid;
  vector_blocks (S (e - mid)) e (to_radian (pd_pos m).1) (to_radian (pd_pos m).2) mid d.

Section geo.
Context (nth_element : nat -> list PD -> list PD).

(** [construct_tree], geo_position_to_node.cpp:27-110, with the code of lines
    48-106 in place of the loop in the comment above it. *)
Fixpoint geo_construct_tree (fuel : nat) (d : list PD) (b e : nat) : option (list PD) :=
  match fuel with
  | O => None
  | S fuel =>
    if decide (max_points_per_leaf < e - b)%nat then
      let mid := (b + (e - b) / 2)%nat in
      d ← geo_construct_tree fuel
            (take (b + 1) d
             ++ nth_element (mid - (b + 1))%nat (take (e - (b + 1)) (drop (b + 1) d))
             ++ drop e d) b mid;
      d ← vector_distances mid e d;
      geo_construct_tree fuel d mid e
    else Some d
  end.

(** The body of the loop in geo_position_to_node.cpp:120-124. *)
Definition fill_point (latitude longitude : list R) (i : nat) (data : list PD) : option (list PD) :=
  la ← latitude !! i; lo ← longitude !! i; p ← data !! i;
  data ← wr data i (PointData (la, lo) i (pd_dist p));
  p0 ← data !! O; p ← data !! i;
  wr data i (PointData (pd_pos p) (pd_id p) (compute_distance (pd_pos p0) (pd_pos p))).

(** The constructor, geo_position_to_node.cpp:113-130.  The assertion of line 115
    is not compiled in; without it a longitude beyond the end of the array is
    read, which is [None].  [PointData] is value-initialised in line 118. *)
Definition geo_position_to_node (latitude longitude : list R) : option (geo_tree position) :=
  let point_count := length latitude in
  data ← for_range 0 point_count (fill_point latitude longitude)
           (replicate point_count (PointData (0, 0) O 0));
  data ← geo_construct_tree (S point_count) data 0 point_count;
  Some (GeoTree (pd_pos <$> data) (pd_id <$> data)).

End geo.
