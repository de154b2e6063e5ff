(** Queries by OSM ids in the files of osm_extract. *)
From Verif Require Import Base ProtobufModel DistanceToolSpec OsmGraphSpec OsmRouteSpec WalkSpec.

Section queries.
  Context {F : Type} (nodes : list nat) (arcs : list (arc (F := F))) (weight : arc (F := F) -> N).
  (** One target for every source, all of them nodes of the graph. *)
  Definition osm_queries (source target : list nat) : Prop := source <> [] /\ length source = length target /\ Forall (fun x => x ∈ nodes) source /\ Forall (fun x => x ∈ nodes) target.
  (** Where there is a route, there is one that is shorter than inf_weight. *)
  Definition routes_below (x : nat) : Prop := forall r y, route arcs x r y -> exists r', route arcs x r' y /\ (route_length weight r' < inf_weight)%N.
  (** A program gets the files with the local ids of the nodes, and writes the lengths of shortest routes. *)
  Definition finds_routes (program : list N -> list N -> option (result (list N))) (source target : list nat) : Prop :=
    exists dist, program (id_file (OsmGraphSpec.rank nodes <$> source)) (id_file (OsmGraphSpec.rank nodes <$> target)) = Some (Ret (word_file dist)) /\ length dist = length source /\
      forall i x y d, source !! i = Some x -> target !! i = Some y -> dist !! i = Some d -> shortest_route arcs weight x y d.
End queries.
