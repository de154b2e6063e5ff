(** * Specification for geographic distances (C65, C66)

    Points on the unit sphere, the angle between two of them, and distances along
    great circles.  Nothing here refers to the model. *)
From Coq Require Import Reals.
From stdpp Require Import list numbers.
Local Open Scope R_scope.

(** Vectors in space. *)
Record vec3 := Vec3 { vx : R; vy : R; vz : R }.

Definition dot (u v : vec3) : R := vx u * vx v + vy u * vy v + vz u * vz v.

(** The point on the unit sphere with latitude and longitude in radians. *)
Definition on_sphere (lat lon : R) : vec3 :=
  Vec3 (cos lon * cos lat) (sin lon * cos lat) (sin lat).

(** [t] is the angle between the unit vectors [u] and [v]. *)
Definition angle_between (u v : vec3) (t : R) : Prop :=
  0 <= t <= PI /\ cos t = dot u v.

(** [d] is the distance along a great circle of a sphere with the given radius
    between two positions in degrees, if a full turn has [2 * pi] radians. *)
Definition great_circle (pi radius : R) (lat_a lon_a lat_b lon_b d : R) : Prop :=
  exists t, d = radius * t /\
    angle_between (on_sphere (lat_a * (pi / 180)) (lon_a * (pi / 180)))
                  (on_sphere (lat_b * (pi / 180)) (lon_b * (pi / 180))) t.

(** The range of coordinates that geo_dist.h:8 allows. *)
Definition coordinates (lat lon : R) : Prop :=
  -90 <= lat <= 90 /\ -180 <= lon <= 180.

(** The arcs of a graph, given by their tails and heads, weighed with the distances
    between their ends in whole meters, rounded down. *)
Definition weighs_meters (radius : R) (tail head : list nat) (latitude longitude : list R) (w : list N) : Prop :=
  length w = length head /\
  forall e x y k a b c d, tail !! e = Some x -> head !! e = Some y -> w !! e = Some k ->
    latitude !! x = Some a -> longitude !! x = Some b -> latitude !! y = Some c -> longitude !! y = Some d ->
    exists m, great_circle 3.14159265359 radius a b c d m /\ IZR (Z.of_N k) <= m < IZR (Z.of_N k) + 1.
