(** Model of src/osm_extract.cpp.

    As in OsmSimpleModel, the file is the list of its elements, numbers of type float and double are arbitrary, and the calls of the way
    callback that fill the arrays are a separate pass over the ways. The program writes eleven files; if it is called with seven
    arguments, it does not write those of the ways, of the names, of the speeds and of the OSM ids (47-53, 126-136). [encode] gives the bytes of a float.
    The numbers printed in 115-119 are part of the result, the other messages are left out. [None] is undefined behaviour. *)
From Verif Require Import Base BitVectorModel IdMapperModel TagMapModel VectorIoModel ChFileModel DistanceToolModel OsmGraphModel OsmTurnModel OsmProfileModel OsmSimpleModel.

(** 126-136: the contents of the files *)
Record extracted := mkExtracted {
  xf_first_out : list N; xf_head : list N; xf_geo_distance : list N; xf_travel_time : list N; xf_way : list N; xf_way_name : list N; xf_way_speed : list N;
  xf_latitude : list N; xf_longitude : list N; xf_osm_node : list N; xf_osm_way : list N }.
(** 115-119: arc, travel time, length, speed, OSM way *)
Record report := mkReport { r_arc : nat; r_time : N; r_length : N; r_speed : N; r_way : nat }.

(** 104-111: the last arc that takes the longest *)
Definition slowest_arc (arc_count : nat) (travel_time : list N) : option (option nat) :=
  '(max_arc, _) ← for_range 0 arc_count (fun a '(max_arc, max_travel_time) =>
    t ← travel_time !! a;
    Some (if (max_travel_time <=? t)%N then (Some a, t) else (max_arc, max_travel_time))) (None, 0%N);
  Some max_arc.

Section extract.
Context {D F : Type} (narrow : D -> F) (fzero : F) (dzero : D) (dplus : D -> D -> D) (geo_dist : F -> F -> F -> F -> D) (to_unsigned : D -> N).
Context (turn_matches : turn_direction -> F * F -> F * F -> F * F -> bool) (std_sort std_sort' : list nat -> list nat) (asserts : bool) (encode : F -> list N).

(** 85-87 as part of osm_graph_builder.cpp:229-235: the calls of the way callback with a local id. [garbage] as in OsmProfileModel. *)
Definition fill_ways (garbage : list N) (wm : mapper) (file : list (element D tag_list)) (arrays : list N * list cstring) : option (list N * list cstring) :=
  for_each (ordered_read file) (fun e '(way_speed, way_name) =>
    match e with
    | EWay id _ tags =>
        w ← to_local_or wm id None;
        match w with
        | None => Some (way_speed, way_name)
        | Some w =>
            speed ← get_osm_way_speed garbage tags;
            way_speed ← wr way_speed w speed;
            way_name ← wr way_name w (get_osm_way_name tags);
            Some (way_speed, way_name)
        end
    | _ => Some (way_speed, way_name)
    end) arrays.
(** 94-101 *)
Definition extract_times (arc_count : nat) (geo_distance : list N) (way : list nat) (way_speed : list N) : option (list N) :=
  for_range 0 arc_count (fun a t => d ← t !! a; w ← way !! a; speed ← way_speed !! w; x ← travel_time d speed; wr t a x) geo_distance.
(** 104-119. [max_arc] without a value is invalid_id, with which line 116 reads outside of the array. *)
Definition extract_report (arc_count : nat) (travel_time geo_distance : list N) (way : list nat) (way_speed : list N) (wm : mapper) : option report :=
  m ← slowest_arc arc_count travel_time;
  a ← m;
  t ← travel_time !! a; d ← geo_distance !! a; w ← way !! a; speed ← way_speed !! w; id ← to_global wm w;
  Some (mkReport a t d speed id).
(** 69-136 *)
Definition osm_extract (garbage : list N) (file : list (element D tag_list)) : option (report * extracted) :=
  m ← load_osm_id_mapping None (fun _ tags => is_osm_way_used_by_cars tags) false file;
  routing_way_count ← bv_popcount (is_routing_way m);
  wm ← new_mapper (bv_size (is_routing_way m)) (bv_data (is_routing_way m));
  '(way_speed, way_name) ← fill_ways garbage wm file (replicate routing_way_count 0%N, replicate routing_way_count []);
  '(g, _) ← load_osm_routing_graph narrow fzero dzero dplus geo_dist to_unsigned turn_matches std_sort std_sort' asserts file m
      (Some (fun _ _ tags => get_osm_car_direction_category tags)) None GeoNone;
  travel_time ← extract_times (length (g_head g)) (g_dist g) (g_way g) way_speed;
  rep ← extract_report (length (g_head g)) travel_time (g_dist g) (g_way g) way_speed wm;
  Some (rep, mkExtracted (save_ids (g_first_out g)) (save_ids (g_head g)) (save_words (g_dist g)) (save_words travel_time) (save_ids (g_way g)) (save_strings way_name) (save_words way_speed)
    (save_vector encode (g_lat g)) (save_vector encode (g_lon g)) (save_bits (is_routing_node m)) (save_bits (is_routing_way m))).
End extract.
