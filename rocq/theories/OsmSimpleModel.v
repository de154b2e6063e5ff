(** Model of src/osm_simple.cpp and include/routingkit/osm_simple.h ([h:]): the graphs for cars,
    pedestrians and bicycles.

    The tags of an element are the list of its tags (OsmProfileModel), a file is the list of its
    elements (OsmGraphModel). The way callbacks of the two loaders with arrays write into an
    array and return a direction. The direction depends only on the tags, so the calls that fill the array are a
    separate pass over the ways here ([fill]), in the same order and with the same local ids. A restriction decoder reports
    nothing if it is not defined, which does not happen (see C53). The argument
    file_is_ordered_even_though_file_header_says_that_it_is_unordered is not used by the code.
    [None] is undefined behaviour. *)
From Verif Require Import Base BitVectorModel IdMapperModel OsmGraphModel OsmTurnModel OsmProfileModel.

(** h:10-18 *)
Record car_graph {F : Type} := mkCar { car_first_out : list nat; car_head : list nat; car_travel_time : list N; car_dist : list N; car_lat : list F; car_lon : list F; car_from : list nat; car_to : list nat }.
Arguments car_graph F : clear implicits.
Arguments mkCar {F}.
(** h:37-42 *)
Record pedestrian_graph {F : Type} := mkPed { ped_first_out : list nat; ped_head : list nat; ped_dist : list N; ped_lat : list F; ped_lon : list F }.
Arguments pedestrian_graph F : clear implicits.
Arguments mkPed {F}.
(** h:62-68 *)
Record bicycle_graph {F : Type} := mkBic { bic_first_out : list nat; bic_head : list nat; bic_dist : list N; bic_lat : list F; bic_lon : list F; bic_comfort : list N }.
Arguments bicycle_graph F : clear implicits.
Arguments mkBic {F}.

Section simple.
Context {D F : Type} (narrow : D -> F) (fzero : F) (dzero : D) (dplus : D -> D -> D) (geo_dist : F -> F -> F -> F -> D) (to_unsigned : D -> N).
Context (turn_matches : turn_direction -> F * F -> F * F -> F * F -> bool) (std_sort std_sort' : list nat -> list nat) (asserts : bool).

(** 34 and 129 as part of osm_graph_builder.cpp:229-235: the calls of the way callback with a local id store a value. *)
Definition fill (wm : mapper) (value : tag_list -> option N) (file : list (element D tag_list)) (arr : list N) : option (list N) :=
  for_each (ordered_read file) (fun e arr =>
    match e with
    | EWay id _ tags => w ← to_local_or wm id None; match w with None => Some arr | Some w => v ← value tags; wr arr w v end
    | _ => Some arr
    end) arr.

(** 37-39 *)
Definition decoder (id : nat) (ms : list member) (tags : tag_list) : list restriction := default [] (decode_osm_car_turn_restrictions id ms tags).

(** 53-57: 32-bit arithmetic, and a division by zero is undefined *)
Definition travel_time (dist speed : N) : option N := _ ← chk (bool_decide (speed <> 0%N)); Some ((dist * 18000) mod 2 ^ 32 / speed / 5)%N.
Definition travel_times (dist : list N) (way : list nat) (way_speed : list N) : option (list N) :=
  for_range 0 (length dist) (fun a t =>
    d ← t !! a; w ← way !! a; speed ← way_speed !! w; x ← travel_time d speed; wr t a x) dist.

(** 11-65. The assertion in line 60. [garbage] is the content of the buffer in get_osm_way_speed. *)
Definition simple_load_osm_car_routing_graph_from_pbf (garbage : list N) (all_modelling_nodes_are_routing_nodes : bool) (file : list (element D tag_list)) : option (car_graph F) :=
  m ← load_osm_id_mapping None (fun _ tags => is_osm_way_used_by_cars tags) all_modelling_nodes_are_routing_nodes file;
  routing_way_count ← bv_popcount (is_routing_way m);
  wm ← new_mapper (bv_size (is_routing_way m)) (bv_data (is_routing_way m));
  way_speed ← fill wm (get_osm_way_speed garbage) file (replicate routing_way_count 0%N);
  '(g, (from, to)) ← load_osm_routing_graph narrow fzero dzero dplus geo_dist to_unsigned turn_matches std_sort std_sort' asserts file m
      (Some (fun _ _ tags => get_osm_car_direction_category tags)) (Some decoder) GeoNone;
  time ← travel_times (g_dist g) (g_way g) way_speed;
  _ ← (if asserts then chk (forallb (fun i => bool_decide (default 0 (from !! i) <= default 0 (from !! S i))) (seq 0 (length from - 1))) else Some tt);
  Some (mkCar (g_first_out g) (g_head g) time (g_dist g) (g_lat g) (g_lon g) from to).

(** 67-103 *)
Definition simple_load_osm_pedestrian_routing_graph_from_pbf (all_modelling_nodes_are_routing_nodes : bool) (file : list (element D tag_list)) : option (pedestrian_graph F) :=
  m ← load_osm_id_mapping None (fun _ tags => is_osm_way_used_by_pedestrians tags) all_modelling_nodes_are_routing_nodes file;
  '(g, _) ← load_osm_routing_graph narrow fzero dzero dplus geo_dist to_unsigned turn_matches std_sort std_sort' asserts file m (Some (fun _ _ _ => OpenBoth)) None GeoNone;
  Some (mkPed (g_first_out g) (g_head g) (g_dist g) (g_lat g) (g_lon g)).

(** 146-148 *)
Definition comfort_levels (way : list nat) (comfort_level : list N) : option (list N) := mapM (fun w => comfort_level !! w) way.
(** 106-151. The comfort levels are unsigned char, see C52 for their range. *)
Definition simple_load_osm_bicycle_routing_graph_from_pbf (all_modelling_nodes_are_routing_nodes : bool) (file : list (element D tag_list)) : option (bicycle_graph F) :=
  m ← load_osm_id_mapping None (fun _ tags => is_osm_way_used_by_bicycles tags) all_modelling_nodes_are_routing_nodes file;
  routing_way_count ← bv_popcount (is_routing_way m);
  wm ← new_mapper (bv_size (is_routing_way m)) (bv_data (is_routing_way m));
  comfort_level ← fill wm (fun tags => Some (get_osm_way_bicycle_comfort_level tags)) file (replicate routing_way_count 0%N);
  '(g, _) ← load_osm_routing_graph narrow fzero dzero dplus geo_dist to_unsigned turn_matches std_sort std_sort' asserts file m
      (Some (fun _ _ tags => get_osm_bicycle_direction_category tags)) None GeoNone;
  levels ← comfort_levels (g_way g) comfort_level;
  Some (mkBic (g_first_out g) (g_head g) (g_dist g) (g_lat g) (g_lon g) levels).
End simple.
