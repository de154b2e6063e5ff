(** C54: the graphs for cars, pedestrians and bicycles. *)
From Coq Require Import String.
From Verif Require Import Base UtilSpec GraphSpec PathSpec TagMapProofs BitVectorModel IdMapperModel OsmGraphModel OsmGraphSpec OsmScanProofs OsmIdProofs OsmLoadProofs OsmTurnModel OsmTurnSpec OsmTurnProofs Properties_OsmGraph Properties_OsmTurn
  OsmProfileModel OsmProfileSpec OsmProfileProofs Properties_OsmProfile OsmSimpleModel OsmSimpleProofs.
Ltac Zify.zify_post_hook ::= idtac.

(** The decoder of restrictions (C53) is defined for all relations, so [decoder] in the model is that function. *)
Theorem C53_defined : forall relation ms tags, decode_osm_car_turn_restrictions relation ms tags = Some (decoder relation ms tags).
Proof. intros relation ms tags. unfold decoder. by destruct (decode_defined relation ms tags) as [rs ->]. Qed.
Print Assumptions C53_defined.

(** The strings of a file end at their zero byte. *)
Definition c_strings {D} (file : list (element D tag_list)) : Prop := forall id ns tags v, EWay id ns tags ∈ file -> value_of tags "maxspeed" v -> 0%N ∉ v.

(** Every way with a local id is in the file, and used. *)
Lemma way_in_file {D} used (file : list (element D tag_list)) ways id : enum (is_way_of used file) ways -> id ∈ ways -> exists ns tags, EWay id ns tags ∈ file /\ used id tags = true.
Proof.
  intros [_ He] Hid. apply He in Hid as [ns Hu]. unfold used_ways in Hu. apply elem_of_list_In, in_flat_map in Hu as (e & Hin & Hu). destruct e as [|id' ns' tags|]; [done| |done]. cbn [element_ways] in Hu.
  destruct (bool_decide (2 <= length ns') && used id' tags) eqn:E; [|done]. destruct Hu as [Hu|[]]. injection Hu as -> ->. exists ns, tags. split; [by apply elem_of_list_In|]. by apply andb_true_iff in E as [_ E].
Qed.

(** The tails are those of the adjacency array. *)
Lemma graph_tails n {F} (g : osm_graph (F := F)) : csr n (g_first_out g) (g_head g) -> length (g_tail g) = length (g_head g) -> (forall i t, g_tail g !! i = Some t -> out_arc (g_first_out g) t i) ->
  tails_ok (g_first_out g) (g_tail g) (g_head g).
Proof.
  intros Hc Hl Ht. split; [done|]. intros x a Ha. destruct (out_arc_lt _ _ _ _ _ Hc Ha) as [_ Hlt]. destruct (lookup_lt_is_Some_2 (g_tail g) a) as [t E]; [lia|].
  rewrite E. f_equal. eapply out_arc_unique; [exact Hc|by apply Ht|done].
Qed.

(** The graph for cars is that of C49 for the ways that cars use, in the directions of C52, with the forbidden turns of C50 for the restrictions of C53. The travel
    time of an arc is the time in milliseconds that a car with the speed of the way needs for its length, rounded down, if the arc is shorter than 238610 metres. *)
Theorem C54_car_partial : forall {D F} (narrow : D -> F) fzero dzero dplus geo_dist to_unsigned turn_matches std_sort std_sort' asserts garbage all (file : list (element D tag_list)),
  let used := fun _ : nat => is_osm_way_used_by_cars in
  length garbage = 1024 -> c_strings file -> NoDup (way_ids file) -> (asserts = true -> forall m, load_osm_id_mapping None used all file = Some m -> mapping_assertion m = Some tt) ->
  exists g nodes ways arcs, enum (routing None used all file) nodes /\ enum (is_way_of used file) ways /\
    csr (length nodes) (g_first_out g) (g_head g) /\ heads_sorted (g_first_out g) (g_head g) /\ tails_ok (g_first_out g) (g_tail g) (g_head g) /\
    g_lat g = map (fun x => (position narrow fzero file x).1) nodes /\ g_lon g = map (fun x => (position narrow fzero file x).2) nodes /\
    arcs ≡ₚ file_arcs dzero dplus geo_dist to_unsigned (position narrow fzero file) (fun x => bool_decide (x ∈ nodes)) (fun x => bool_decide (x ∈ ways)) (rank ways) (fun _ _ tags => get_osm_car_direction_category tags) file /\
    length (g_head g) = length arcs /\ length (g_dist g) = length arcs /\ length (g_way g) = length arcs /\ (forall i a, arcs !! i = Some a -> arc_entry GeoFirstLast nodes ways g i a) /\
    (sort_perm (fun x => x) (g_way g) (std_sort (seq 0 (length (g_way g)))) -> sort_perm (fun x => x) (g_head g) (std_sort' (seq 0 (length (g_head g)))) ->
     exists t l c, simple_load_osm_car_routing_graph_from_pbf narrow fzero dzero dplus geo_dist to_unsigned turn_matches std_sort std_sort' asserts garbage all file =
         Some (mkCar (g_first_out g) (g_head g) t (g_dist g) (g_lat g) (g_lon g) (map fst l) (map snd l)) /\
       (StronglySorted lex_lt l /\ selection g c /\ forall a b, (a, b) ∈ l <-> exists r r', r ∈ file_restrictions (Some decoder) file /\ localised nodes ways r r' /\ forbids turn_matches g c r' a b) /\
       length t = length arcs /\
       forall i a, arcs !! i = Some a -> exists ns tags speed, EWay (x_way a) ns tags ∈ file /\ is_osm_way_used_by_cars tags = true /\ get_osm_way_speed garbage tags = Some speed /\ (1 <= speed)%N /\
         ((x_dist a < 238610)%N -> t !! i = Some (x_dist a * 3600 / speed)%N)).
Proof.
  intros D F narrow fzero dzero dplus geo_dist to_unsigned turn_matches std_sort std_sort' asserts garbage all file used Hg Hz Hnd Hass.
  destruct (C48_scan_partial None used all file) as (m & Em & _ & _ & Hw).
  destruct (C49_graph_partial narrow fzero dzero dplus geo_dist to_unsigned asserts None used all file (Some (fun _ _ tags => get_osm_car_direction_category tags)) (Some decoder) GeoNone m Em Hnd (fun H => Hass H m Em))
    as (g & mm & rm & wm & mods & nodes & ways & E & _ & En & Ew & _ & _ & Hwm & Hcsr & Hhs & Htl0 & Hla & Hlo & _ & arcs & Harcs & Hl0 & Hl1 & Hl2 & Hl3 & _ & Hent).
  destruct (C50_load_partial narrow fzero dzero dplus geo_dist to_unsigned turn_matches std_sort std_sort' asserts None used all file (Some (fun _ _ tags => get_osm_car_direction_category tags)) (Some decoder) GeoNone m Em Hnd (fun H => Hass H m Em))
    as (g' & mm' & rm' & wm' & nodes' & ways' & E' & En' & Ew' & Hturns).
  rewrite E in E'. injection E' as <- <- <- <-. assert (nodes' = nodes) as -> by (by eapply enum_unique). assert (ways' = ways) as -> by (by eapply enum_unique).
  exists g, nodes, ways, arcs. pose proof (graph_tails _ _ Hcsr (eq_trans Hl0 (eq_sym Hl1)) Htl0) as Htok. do 12 (split; [done|]). intros Hs1 Hs2. destruct (Hturns Hs1 Hs2) as (l & c & El & Hl).
  unfold simple_load_osm_car_routing_graph_from_pbf. change (fun (_ : nat) (tags : tag_list) => is_osm_way_used_by_cars tags) with used. rewrite Em, bind_S. rewrite (popcount_ways _ _ _ Hw Ew), bind_S.
  destruct (mapper_numbers _ _ Hw) as (wm' & ways' & Ewm & Ew'' & Hwm'). rewrite Ewm, bind_S. assert (ways' = ways) as -> by (by eapply enum_unique).
  assert (forall id ns tags, EWay id ns tags ∈ file -> exists v, get_osm_way_speed garbage tags = Some v /\ (1 <= v < 2 ^ 31 - 1)%N) as Hspeed.
  { intros id ns tags Hin. apply C51_speed_range; [done|]. intros v Hv. by eapply Hz. }
  destruct (fill_spec wm' ways (get_osm_way_speed garbage) file (replicate (length ways) 0%N)) as (sp & -> & Hsl & Hsp); [done|apply Ew|done|apply replicate_length| |].
  { intros id ns tags Hin _. destruct (Hspeed _ _ _ Hin) as (v & -> & _). done. }
  rewrite bind_S, El, bind_S. cbv beta iota.
  assert (forall i a, arcs !! i = Some a -> exists ns tags speed, EWay (x_way a) ns tags ∈ file /\ is_osm_way_used_by_cars tags = true /\ get_osm_way_speed garbage tags = Some speed /\ (1 <= speed)%N /\
    g_way g !! i = Some (rank ways (x_way a)) /\ sp !! rank ways (x_way a) = Some speed) as Harc.
  { intros i a Ha. destruct (Hent i a Ha) as [_ _ (w & Hw1 & Hw2) _ _ _]. apply (rank_lookup _ _ _ (proj1 Ew)) in Hw1 as [Hid <-]. destruct (way_in_file used file ways _ Ew Hid) as (ns & tags & Hin & Hused).
    destruct (Hsp _ _ _ Hin Hid) as (v & Hv & Hv'). destruct (Hspeed _ _ _ Hin) as (v' & Hv'' & Hr). exists ns, tags, v. split_and!; [done..| |done|done]. assert (v' = v) as -> by congruence. apply Hr. }
  destruct (travel_times_spec (g_dist g) (g_way g) sp) as (t & -> & Htl & Ht); [lia| |].
  { intros i w Hi. destruct (lookup_lt_is_Some_2 arcs i) as [a Ha]; [apply lookup_lt_Some in Hi; lia|]. destruct (Harc i a Ha) as (ns & tags & speed & _ & _ & _ & Hr & Hi' & Hs). assert (w = rank ways (x_way a)) as -> by congruence. exists speed. split; [done|lia]. }
  rewrite bind_S. exists t, l, c. split; [|split; [done|split; [lia|]]].
  - destruct asserts; [|done]. assert (forallb (fun i => bool_decide (default 0 (map fst l !! i) <= default 0 (map fst l !! S i))) (seq 0 (length (map fst l) - 1)) = true) as ->; [|done].
    apply forallb_forall. intros i Hi%in_seq. apply bool_decide_eq_true. rewrite map_length in Hi. destruct (lookup_lt_is_Some_2 l i) as [x Hx]; [lia|]. destruct (lookup_lt_is_Some_2 l (S i)) as [y Hy]; [lia|].
    change (@map (nat * nat) nat) with (@fmap list list_fmap (nat * nat) nat). rewrite !list_lookup_fmap, Hx, Hy. cbn. destruct Hl as [Hss _]. assert (lex_lt x y) as Hxy. { eapply (ssorted_lookup lex_lt l i (S i)); [done|done|done|lia]. }
    unfold lex_lt in Hxy. lia.
  - intros i a Ha. destruct (Harc i a Ha) as (ns & tags & speed & H1 & H2 & H3 & H4 & H5 & H6). exists ns, tags, speed. do 4 (split; [done|]). intros Hd. destruct (Hent i a Ha) as [_ _ _ Hdist _ _].
    rewrite (Ht i _ _ _ Hdist H5 H6). rewrite travel_time_exact; [done| |lia]. change (2 ^ 32)%N with 4294967296%N. lia.
Qed.
Print Assumptions C54_car_partial.

(** The graph for bicycles; each arc has the comfort level of its way. *)
Theorem C54_bicycle : forall {D F} (narrow : D -> F) fzero dzero dplus geo_dist to_unsigned turn_matches std_sort std_sort' asserts all (file : list (element D tag_list)),
  let used := fun _ : nat => is_osm_way_used_by_bicycles in
  NoDup (way_ids file) -> (asserts = true -> forall m, load_osm_id_mapping None used all file = Some m -> mapping_assertion m = Some tt) ->
  exists g nodes ways arcs levels, enum (routing None used all file) nodes /\ enum (is_way_of used file) ways /\
    csr (length nodes) (g_first_out g) (g_head g) /\ heads_sorted (g_first_out g) (g_head g) /\ tails_ok (g_first_out g) (g_tail g) (g_head g) /\
    g_lat g = map (fun x => (position narrow fzero file x).1) nodes /\ g_lon g = map (fun x => (position narrow fzero file x).2) nodes /\
    arcs ≡ₚ file_arcs dzero dplus geo_dist to_unsigned (position narrow fzero file) (fun x => bool_decide (x ∈ nodes)) (fun x => bool_decide (x ∈ ways)) (rank ways) (fun _ _ tags => get_osm_bicycle_direction_category tags) file /\
    length (g_head g) = length arcs /\ length (g_dist g) = length arcs /\ (forall i a, arcs !! i = Some a -> arc_entry GeoNone nodes ways g i a) /\
    simple_load_osm_bicycle_routing_graph_from_pbf narrow fzero dzero dplus geo_dist to_unsigned turn_matches std_sort std_sort' asserts all file =
      Some (mkBic (g_first_out g) (g_head g) (g_dist g) (g_lat g) (g_lon g) levels) /\
    length levels = length arcs /\
    forall i a, arcs !! i = Some a -> exists ns tags, EWay (x_way a) ns tags ∈ file /\ is_osm_way_used_by_bicycles tags = true /\ levels !! i = Some (get_osm_way_bicycle_comfort_level tags).
Proof.
  intros D F narrow fzero dzero dplus geo_dist to_unsigned turn_matches std_sort std_sort' asserts all file used Hnd Hass.
  destruct (C48_scan_partial None used all file) as (m & Em & _ & _ & Hw).
  destruct (C49_graph_partial narrow fzero dzero dplus geo_dist to_unsigned asserts None used all file (Some (fun _ _ tags => get_osm_bicycle_direction_category tags)) None GeoNone m Em Hnd (fun H => Hass H m Em))
    as (g & mm & rm & wm & mods & nodes & ways & E & _ & En & Ew & _ & _ & Hwm & Hcsr & Hhs & Htl0 & Hla & Hlo & _ & arcs & Harcs & Hl0 & Hl1 & Hl2 & Hl3 & _ & Hent).
  destruct (mapper_numbers _ _ Hw) as (wm' & ways' & Ewm & Ew'' & Hwm'). assert (ways' = ways) as -> by (by eapply enum_unique).
  destruct (fill_spec wm' ways (fun tags => Some (get_osm_way_bicycle_comfort_level tags)) file (replicate (length ways) 0%N)) as (sp & Efill & Hsl & Hsp); [done|apply Ew|done|apply replicate_length|done|].
  assert (forall i a, arcs !! i = Some a -> exists ns tags, EWay (x_way a) ns tags ∈ file /\ is_osm_way_used_by_bicycles tags = true /\
    g_way g !! i = Some (rank ways (x_way a)) /\ sp !! rank ways (x_way a) = Some (get_osm_way_bicycle_comfort_level tags)) as Harc.
  { intros i a Ha. destruct (Hent i a Ha) as [_ _ (w & Hw1 & Hw2) _ _ _]. apply (rank_lookup _ _ _ (proj1 Ew)) in Hw1 as [Hid <-]. destruct (way_in_file used file ways _ Ew Hid) as (ns & tags & Hin & Hused).
    destruct (Hsp _ _ _ Hin Hid) as (v & [= <-] & Hv'). by exists ns, tags. }
  assert (exists levels, comfort_levels (g_way g) sp = Some levels) as [levels Elev].
  { unfold comfort_levels. apply mapM_is_Some_2. apply Forall_lookup. intros i w Hi. destruct (lookup_lt_is_Some_2 arcs i) as [a Ha]; [apply lookup_lt_Some in Hi; lia|]. destruct (Harc i a Ha) as (ns & tags & _ & _ & Hi' & Hs). assert (w = rank ways (x_way a)) as -> by congruence. by eexists. }
  pose proof Elev as Elev'. unfold comfort_levels in Elev'. apply mapM_Some in Elev'.
  exists g, nodes, ways, arcs, levels. pose proof (graph_tails _ _ Hcsr (eq_trans Hl0 (eq_sym Hl1)) Htl0) as Htok. do 11 (split; [done|]). split; [|split].
  - unfold simple_load_osm_bicycle_routing_graph_from_pbf. change (fun (_ : nat) (tags : tag_list) => is_osm_way_used_by_bicycles tags) with used. rewrite Em, bind_S. rewrite (popcount_ways _ _ _ Hw Ew), bind_S.
    rewrite Ewm, bind_S, Efill, bind_S. unfold load_osm_routing_graph. rewrite E, bind_S. cbv beta iota.
    assert (file_restrictions (D := D) (T := tag_list) None file = []) as ->. { clear. unfold file_restrictions. induction file as [|[] file IH]; cbn; done. }
    cbn [forbidden_turns]. rewrite !bind_S. cbv beta iota. by rewrite Elev.
  - apply Forall2_length in Elev'. lia.
  - intros i a Ha. destruct (Harc i a Ha) as (ns & tags & H1 & H2 & H3 & H4). exists ns, tags. split; [done|]. split; [done|]. destruct (Forall2_lookup_l _ _ _ _ _ Elev' H3) as (v & Hv & Hv'). congruence.
Qed.
Print Assumptions C54_bicycle.

(** The graph for pedestrians; every arc can be used in both directions, with the same length. *)
Theorem C54_pedestrian : forall {D F} (narrow : D -> F) fzero dzero dplus geo_dist to_unsigned turn_matches std_sort std_sort' asserts all (file : list (element D tag_list)),
  let used := fun _ : nat => is_osm_way_used_by_pedestrians in
  NoDup (way_ids file) -> (asserts = true -> forall m, load_osm_id_mapping None used all file = Some m -> mapping_assertion m = Some tt) ->
  exists g nodes ways arcs, enum (routing None used all file) nodes /\ enum (is_way_of used file) ways /\
    csr (length nodes) (g_first_out g) (g_head g) /\ heads_sorted (g_first_out g) (g_head g) /\ tails_ok (g_first_out g) (g_tail g) (g_head g) /\
    g_lat g = map (fun x => (position narrow fzero file x).1) nodes /\ g_lon g = map (fun x => (position narrow fzero file x).2) nodes /\
    arcs ≡ₚ file_arcs dzero dplus geo_dist to_unsigned (position narrow fzero file) (fun x => bool_decide (x ∈ nodes)) (fun x => bool_decide (x ∈ ways)) (rank ways) (fun _ _ _ => OpenBoth) file /\
    length (g_head g) = length arcs /\ length (g_dist g) = length arcs /\ (forall i a, arcs !! i = Some a -> arc_entry GeoNone nodes ways g i a) /\
    simple_load_osm_pedestrian_routing_graph_from_pbf narrow fzero dzero dplus geo_dist to_unsigned turn_matches std_sort std_sort' asserts all file =
      Some (mkPed (g_first_out g) (g_head g) (g_dist g) (g_lat g) (g_lon g)) /\
    forall i a, arcs !! i = Some a -> exists j b, arcs !! j = Some b /\ x_tail b = x_head a /\ x_head b = x_tail a /\ x_dist b = x_dist a /\ x_way b = x_way a.
Proof.
  intros D F narrow fzero dzero dplus geo_dist to_unsigned turn_matches std_sort std_sort' asserts all file used Hnd Hass.
  destruct (C48_scan_partial None used all file) as (m & Em & _ & _ & Hw).
  destruct (C49_graph_partial narrow fzero dzero dplus geo_dist to_unsigned asserts None used all file (Some (fun _ _ _ => OpenBoth)) None GeoNone m Em Hnd (fun H => Hass H m Em))
    as (g & mm & rm & wm & mods & nodes & ways & E & _ & En & Ew & _ & _ & Hwm & Hcsr & Hhs & Htl0 & Hla & Hlo & _ & arcs & Harcs & Hl0 & Hl1 & Hl2 & Hl3 & _ & Hent).
  exists g, nodes, ways, arcs. pose proof (graph_tails _ _ Hcsr (eq_trans Hl0 (eq_sym Hl1)) Htl0) as Htok. do 11 (split; [done|]). split.
  - unfold simple_load_osm_pedestrian_routing_graph_from_pbf. change (fun (_ : nat) (tags : tag_list) => is_osm_way_used_by_pedestrians tags) with used. rewrite Em, bind_S.
    unfold load_osm_routing_graph. rewrite E, bind_S. cbv beta iota.
    assert (file_restrictions (D := D) (T := tag_list) None file = []) as ->. { clear. unfold file_restrictions. induction file as [|[] file IH]; cbn; done. }
    done.
  - intros i a Ha. apply elem_of_list_lookup_2 in Ha. rewrite Harcs in Ha. unfold file_arcs in Ha. apply elem_of_list_In, in_flat_map in Ha as (e & He & Ha). destruct e as [|id ns tags|]; [done| |done]. cbn [element_arcs] in Ha.
    destruct (bool_decide (id ∈ ways)) eqn:Eid; [|done]. apply in_flat_map in Ha as ([[x inner] y] & Hseg & Ha). cbn [default] in Ha.
    assert (forall b, In b (segment_arcs dzero dplus geo_dist to_unsigned (position narrow fzero file) id OpenBoth (x, inner, y)) -> b ∈ arcs) as Hb.
    { intros b Hb. rewrite Harcs. unfold file_arcs. apply elem_of_list_In, in_flat_map. exists (EWay id ns tags). split; [done|]. cbn [element_arcs]. rewrite Eid. apply in_flat_map. exists (x, inner, y). by split. }
    cbn [segment_arcs] in Ha, Hb. cbv zeta in Ha, Hb. destruct Ha as [<-|[<-|[]]].
    + destruct (elem_of_list_lookup_1 _ _ (Hb _ (or_intror (or_introl eq_refl)))) as [j Hj]. exists j. eexists. split; [exact Hj|done].
    + destruct (elem_of_list_lookup_1 _ _ (Hb _ (or_introl eq_refl))) as [j Hj]. exists j. eexists. split; [exact Hj|done].
Qed.
Print Assumptions C54_pedestrian.

(** *** Examples: a road with a limit, a one-way street that turns off, and a footway; the turn from the road into the street is forbidden. *)
Local Open Scope string_scope.
Definition street_file : list (element Z tag_list) :=
  [ENode 1 0%Z 0%Z []; ENode 2 0%Z 1000%Z []; ENode 3 0%Z 1500%Z []; ENode 4 500%Z 1500%Z [];
   EWay 10 [1; 2] (tagged [("highway", "primary"); ("maxspeed", "50"); ("cycleway", "track")]); EWay 12 [4; 1] (tagged [("highway", "footway")]); EWay 11 [2; 3; 4] (tagged [("oneway", "yes"); ("highway", "residential")]);
   ERelation 20 [mkMember TWay 10 (bytes "from"); mkMember TNode 2 (bytes "via"); mkMember TWay 11 (bytes "to")] (tagged [("restriction", "no_straight_on")])].
Definition manhattan (a b c d : Z) : Z := (Z.abs (a - c) + Z.abs (b - d))%Z.
Definition street_cars (file : list (element Z tag_list)) (order order' : list nat) : option (car_graph Z) :=
  simple_load_osm_car_routing_graph_from_pbf (fun x => x) 0%Z 0%Z Z.add manhattan Z.to_N grid_turn (fun _ => order) (fun _ => order') false (replicate 1024 1%N) false file.
Example cars_example : street_cars street_file [0; 1; 2] [1; 0; 2] = Some (mkCar [0; 1; 3; 3] [1; 0; 2] [72000; 72000; 144000]%N [1000; 1000; 1000]%N [0; 0; 500]%Z [0; 1000; 1500]%Z [0] [2]).
Proof. by vm_compute. Qed.
Example bicycles_example : simple_load_osm_bicycle_routing_graph_from_pbf (fun x => x) 0%Z 0%Z Z.add manhattan Z.to_N grid_turn (fun l => l) (fun l => l) false false street_file =
  Some (mkBic [0; 2; 4; 5] [1; 2; 0; 2; 0] [1000; 2000; 1000; 1000; 2000]%N [0; 0; 500]%Z [0; 1000; 1500]%Z [3; 1; 3; 1; 1]%N).
Proof. by vm_compute. Qed.
Example pedestrians_example : simple_load_osm_pedestrian_routing_graph_from_pbf (fun x => x) 0%Z 0%Z Z.add manhattan Z.to_N grid_turn (fun l => l) (fun l => l) false false street_file =
  Some (mkPed [0; 1; 2; 4] [2; 2; 0; 1] [2000; 1000; 2000; 1000]%N [0; 0; 500]%Z [0; 1000; 1500]%Z).
Proof. by vm_compute. Qed.
Example street_hypotheses : c_strings street_file /\ NoDup (way_ids street_file) /\ sort_perm (fun x => x) [0; 0; 1] [0; 1; 2] /\ sort_perm (fun x => x) [1; 0; 2] [1; 0; 2].
Proof.
  split; [|split; [|split; by apply sorted_order_sound]].
  - intros id ns tags v Hin Hv. apply get_spec in Hv. unfold street_file in Hin. repeat (apply elem_of_cons in Hin as [Hin|Hin]); try (by apply elem_of_nil in Hin); try done; injection Hin as -> -> ->; vm_compute in Hv; try done.
    injection Hv as <-. intros H. by apply (bool_decide_eq_true_2 (_ ∈ _)) in H.
  - apply (bool_decide_unpack _). by vm_compute.
Qed.

(** The product of the length and 18000 overflows from 238610 metres on. A ferry of this length takes 2.5 s at 1 km/h. *)
Theorem C54_car_refuted : exists file order, street_cars file order order = Some (mkCar [0; 1; 2] [1; 0] [2540; 2540]%N [238610; 238610]%N [0; 0]%Z [0; 238610]%Z [] []) /\ (238610 * 3600 / 1 = 858996000)%N.
Proof.
  exists [ENode 1 0%Z 0%Z []; ENode 2 0%Z 238610%Z []; EWay 10 [1; 2] (tagged [("route", "ferry"); ("maxspeed", "1")])], [0; 1]. split; [|done]. by vm_compute.
Qed.
Print Assumptions C54_car_refuted.
