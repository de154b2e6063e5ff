(** What the coordinates of the nodes of an OSM file are: integers, times the granularity of
    the block, in units of 10^-9 degrees. *)
From Coq Require Import ZArith.
From Verif Require Import Base.

(** The coordinates of a dense group are stored as differences: the numbers themselves *)
Fixpoint running_sums (k : Z) (deltas : list Z) : list Z :=
  match deltas with
  | [] => []
  | d :: ds => (k + d)%Z :: running_sums (k + d)%Z ds
  end.

(** All coordinates of the block are between -180 and 180 degrees. *)
Definition on_earth (granularity : Z) (ks : list Z) : Prop :=
  Forall (fun k => Z.abs (granularity * k) <= 180000000000)%Z ks.
