(** Model of the floating point arithmetic with which src/osm_decoder.cpp ([o:]) computes the
    coordinates of nodes, and with which src/osm_graph_builder.cpp stores them: IEEE 754 as in
    FloatModel. OsmBlockModel has the same computation with exact numbers. *)
From Coq Require Import ZArith.
From Flocq Require Import IEEE754.Binary IEEE754.Bits.
From Verif Require Import Base FloatModel.

(** o:318-320, the literal 0.000000001: the double nearest to 10^-9, which is also what the
    division of 1 by 10^9 gives *)
Definition nano : binary64 := b64_div BinarySingleNaN.mode_NE (to_double 1) (to_double 1000000000).
(** o:318-319, primblock_lon_offset and primblock_lat_offset from an int64_t *)
Definition block_offset (offset : Z) : binary64 := b64_mult BinarySingleNaN.mode_NE nano (to_double offset).
(** o:320, primblock_granularity from an uint64_t *)
Definition block_granularity (granularity : Z) : binary64 := b64_mult BinarySingleNaN.mode_NE nano (to_double granularity).
(** o:336 and 338, and the right hand sides of o:424-425: offset plus granularity times number.
    [k] is what zigzag_convert_uint64_to_int64 returns. *)
Definition scaled (offset granularity k : Z) : binary64 :=
  b64_plus BinarySingleNaN.mode_NE (block_offset offset)
    (b64_mult BinarySingleNaN.mode_NE (block_granularity granularity) (to_double k)).
(** o:421-425: the coordinates of the nodes of a dense group one after the other; starts with
    0.0 (o:421). Latitudes and longitudes are computed in the same way. *)
Fixpoint dense_coordinates (offset granularity : Z) (x : binary64) (deltas : list Z) : list binary64 :=
  match deltas with
  | [] => []
  | d :: ds => let x := b64_plus BinarySingleNaN.mode_NE x (scaled offset granularity d) in
      x :: dense_coordinates offset granularity x ds
  end.
(** o:421 *)
Definition zero64 : binary64 := B754_zero 53 1024 false.
(** osm_graph_builder.cpp:211-212, 221-227: a double is stored in a vector of float *)
Definition stored (x : binary64) : binary32 := to_float x.
