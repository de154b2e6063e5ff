(** C70: from an OSM file to shortest routes. *)
From Coq Require Import String.
From Verif Require Import Base UtilSpec GraphSpec PathSpec ProtobufModel PermutationModel DistanceToolSpec DistanceToolProofs DistanceToolChProofs
  FlowModel FlowSpec NestedModel NestedSpec InertialModel InertialSpec Properties_Inertial OrderToolModel OrderToolSpec OrderToolProofs Properties_OrderTool
  CchModel CchBuildModel CchApiSpec IdMapperModel TagMapProofs OsmGraphModel OsmGraphSpec OsmTurnModel OsmTurnSpec OsmIdProofs OsmLoadProofs OsmScanProofs OsmProfileModel OsmProfileSpec OsmSimpleModel OsmSimpleProofs Properties_OsmGraph Properties_OsmTurn Properties_OsmSimple
  OsmRouteSpec OsmRouteProofs WalkSpec.
Ltac Zify.zify_post_hook ::= idtac.

Section routes.
  Context {D F : Type} (narrow : D -> F) (fzero : F) (dzero : D) (dplus : D -> D -> D) (geo_dist : F -> F -> F -> F -> D) (to_unsigned : D -> N).
  Context (fplus fminus : F -> F -> F) (flt : F -> F -> bool) (nth_element : (nat -> nat -> bool) -> nat -> list nat -> list nat) (garbage : fragment -> N -> nat -> list bool).
  Context (asserts log filter : bool).

  (** What a user of the library does with the graph of a loader: an order by its coordinates, a CCH, a metric. Then every query between two nodes of
      the graph, which have the OSM ids [x] and [y], gives the length of a shortest route from [x] to [y] and such a route. *)
  Definition routable (fo head : list nat) (w : list N) (latitude longitude : list F) (nodes : list nat) (arcs : list (arc (F := F))) (weight : arc (F := F) -> N) : Prop :=
    exists tail order c m, invert_inverse_vector fo = Some tail /\
      nested_dissection_order_by_coordinates asserts fplus fminus flt nth_element garbage (length fo - 1) tail head latitude longitude = Some order /\
      build_cch asserts log filter order tail head = Some c /\ customize c w (new_metric c) = Some m /\
      forall s t x y, nodes !! s = Some x -> nodes !! t = Some y ->
      exists q d, exec_all c (one_query m s t) (new_query c) = Some q /\ q_get_distance q = Some d /\ shortest_route arcs weight x y d /\
        ((d < inf_weight)%N -> exists p r, q_arc_path c m w q = Some p /\ mapM (fun e => arcs !! e) p = Some r /\ route arcs x r y /\ d = route_length weight r).

  (** Positions can be compared, see C68. *)
  Definition positions_comparable (file : list (element D tag_list)) : Prop :=
    exists P, weak_order P flt /\ forall x, let p := position narrow fzero file x in P p.1 /\ P p.2 /\ P (fplus p.1 p.2) /\ P (fminus p.1 p.2).
  Hypothesis Hnth : nth_element_ok nth_element.
  Hypothesis Hg : forall part b, garbage_ok part (garbage part b).
  Hypothesis Hfl : filter || log = true.

  Lemma graph_routable file nodes (g : osm_graph (F := F)) w arcs weight :
    StronglySorted lt nodes -> nodes <> [] -> positions_comparable file ->
    csr (length nodes) (g_first_out g) (g_head g) -> tails_ok (g_first_out g) (g_tail g) (g_head g) ->
    g_lat g = map (fun x => (position narrow fzero file x).1) nodes -> g_lon g = map (fun x => (position narrow fzero file x).2) nodes ->
    length (g_head g) = length arcs -> length w = length arcs ->
    (forall i a, arcs !! i = Some a -> (exists t, nodes !! t = Some (x_tail a) /\ g_tail g !! i = Some t) /\ (exists h, nodes !! h = Some (x_head a) /\ g_head g !! i = Some h) /\ w !! i = Some (weight a)) ->
    (forall a, a ∈ arcs -> (weight a <= inf_weight)%N) -> (N.of_nat (length nodes) < 2 ^ 32)%N ->
    routable (g_first_out g) (g_head g) w (g_lat g) (g_lon g) nodes arcs weight.
  Proof.
    intros Hss Hne (P & HP & Hpos) Hcsr Ht Hlat Hlon Hla Hlw Hent Hwi H32.
    assert (NoDup nodes) as Hnd.
    { clear -Hss. induction Hss as [|x l _ IH Hx]; constructor; [|done]. intros Hin. rewrite Forall_forall in Hx. specialize (Hx _ Hin). lia. }
    assert (length (g_first_out g) - 1 = length nodes) as Hn by (rewrite (csr_len _ _ _ Hcsr); lia).
    assert (0 < length nodes) as Hpos' by (destruct nodes; [done|cbn; lia]).
    destruct (tails_exist (g_first_out g) (g_head g)) as (tail & Einv & Ht'); [by rewrite Hn|]. assert (tail = g_tail g) as -> by (by eapply tails_unique).
    assert (length (g_lat g) = length nodes /\ length (g_lon g) = length nodes) as [L1 L2] by (rewrite Hlat, Hlon, !map_length; done).
    destruct (order_by_coordinates asserts fplus fminus flt nth_element garbage (length nodes) (g_first_out g) (g_tail g) (g_head g) (g_lat g) (g_lon g) Hnth Hg) as (order & Eo & Hp & Hl); [|done|done|lia|lia|].
    { exists P. split; [done|]. intros i a b Ha Hb. rewrite Hlat in Ha. rewrite Hlon in Hb. change (@map nat F) with (@fmap list list_fmap nat F) in Ha, Hb. rewrite list_lookup_fmap in Ha, Hb.
      destruct (nodes !! i) as [x|]; [|done]. cbn in Ha, Hb. simplify_eq. apply Hpos. }
    destruct (C69_order_file asserts log filter order (g_tail g) (g_head g) w Hp) as (c & m & _ & Ec & Em & H).
    { unfold fits32. by rewrite Hl. }
    { done. }
    { lia. }
    { apply Ht. }
    { rewrite Hl. by eapply csr_tails_lt. }
    { rewrite Hl. by apply Forall_forall, Hcsr. }
    { split; [rewrite (proj1 Ht); congruence|]. apply Forall_lookup_2. intros i x Hx. destruct (lookup_lt_is_Some_2 arcs i) as [a Ha]; [rewrite <- Hlw; by eapply lookup_lt_Some|].
      destruct (Hent i a Ha) as (_ & _ & Hw). simplify_eq. apply Hwi. by eapply elem_of_list_lookup_2. }
    assert (length (g_tail g) = length arcs) as Hlt by (rewrite (proj1 Ht); done).
    exists (g_tail g), order, c, m. rewrite Hn. do 4 (split; [done|]). intros s t x y Hs Htt. rewrite Hl in H.
    destruct (H s t) as (q & d & Eq & Ed & Hd & Hpath); [by eapply lookup_lt_Some|by eapply lookup_lt_Some|]. exists q, d. split; [done|]. split; [done|].
    split; [by eapply distance_route|]. intros Hlt'. destruct (Hpath Hlt') as (p & us & Ep & Hw & -> & _).
    destruct (walk_route nodes (g_tail g) (g_head g) w arcs weight Hlt Hent _ _ _ _ _ Hw Hs Htt) as (r & Er & Hr & HL). exists p, r. done.
  Qed.

  (** Routes for pedestrians, by their length in metres *)
  Theorem C70_pedestrian : forall turn_matches std_sort std_sort' all (file : list (element D tag_list)),
    let used := fun _ : nat => is_osm_way_used_by_pedestrians in
    NoDup (way_ids file) -> (asserts = true -> forall m, load_osm_id_mapping None used all file = Some m -> mapping_assertion m = Some tt) -> positions_comparable file ->
    exists g nodes ways arcs, simple_load_osm_pedestrian_routing_graph_from_pbf narrow fzero dzero dplus geo_dist to_unsigned turn_matches std_sort std_sort' asserts all file = Some g /\
      enum (routing None used all file) nodes /\ enum (is_way_of used file) ways /\
      arcs ≡ₚ file_arcs dzero dplus geo_dist to_unsigned (position narrow fzero file) (fun x => bool_decide (x ∈ nodes)) (fun x => bool_decide (x ∈ ways)) (rank ways) (fun _ _ _ => OpenBoth) file /\
      (nodes <> [] -> (N.of_nat (length nodes) < 2 ^ 32)%N -> (forall a, a ∈ arcs -> (x_dist a <= inf_weight)%N) ->
       routable (ped_first_out g) (ped_head g) (ped_dist g) (ped_lat g) (ped_lon g) nodes arcs x_dist).
  Proof.
    intros turn_matches std_sort std_sort' all file used Hnd Hass Hpos.
    destruct (C54_pedestrian narrow fzero dzero dplus geo_dist to_unsigned turn_matches std_sort std_sort' asserts all file Hnd Hass) as (g & nodes & ways & arcs & En & Ew & Hcsr & _ & Ht & Hla & Hlo & Harcs & Hl1 & Hl2 & Hent & E & _).
    eexists _, nodes, ways, arcs. split; [exact E|]. split; [done|]. split; [done|]. split; [done|]. intros Hne H32 Hwi. cbn.
    apply (graph_routable file); try done; [apply En|]. intros i a Ha. destruct (Hent i a Ha) as [H1 H2 _ H3 _ _]. done.
  Qed.

  (** Routes for bicycles, by their length *)
  Theorem C70_bicycle : forall turn_matches std_sort std_sort' all (file : list (element D tag_list)),
    let used := fun _ : nat => is_osm_way_used_by_bicycles in
    NoDup (way_ids file) -> (asserts = true -> forall m, load_osm_id_mapping None used all file = Some m -> mapping_assertion m = Some tt) -> positions_comparable file ->
    exists g nodes ways arcs, simple_load_osm_bicycle_routing_graph_from_pbf narrow fzero dzero dplus geo_dist to_unsigned turn_matches std_sort std_sort' asserts all file = Some g /\
      enum (routing None used all file) nodes /\ enum (is_way_of used file) ways /\
      arcs ≡ₚ file_arcs dzero dplus geo_dist to_unsigned (position narrow fzero file) (fun x => bool_decide (x ∈ nodes)) (fun x => bool_decide (x ∈ ways)) (rank ways) (fun _ _ tags => get_osm_bicycle_direction_category tags) file /\
      (nodes <> [] -> (N.of_nat (length nodes) < 2 ^ 32)%N -> (forall a, a ∈ arcs -> (x_dist a <= inf_weight)%N) ->
       routable (bic_first_out g) (bic_head g) (bic_dist g) (bic_lat g) (bic_lon g) nodes arcs x_dist).
  Proof.
    intros turn_matches std_sort std_sort' all file used Hnd Hass Hpos.
    destruct (C54_bicycle narrow fzero dzero dplus geo_dist to_unsigned turn_matches std_sort std_sort' asserts all file Hnd Hass) as (g & nodes & ways & arcs & levels & En & Ew & Hcsr & _ & Ht & Hla & Hlo & Harcs & Hl1 & Hl2 & Hent & E & _).
    eexists _, nodes, ways, arcs. split; [exact E|]. split; [done|]. split; [done|]. split; [done|]. intros Hne H32 Hwi. cbn.
    apply (graph_routable file); try done; [apply En|]. intros i a Ha. destruct (Hent i a Ha) as [H1 H2 _ H3 _ _]. done.
  Qed.

  (** The tags of a way *)
  Definition tags_of (file : list (element D tag_list)) (id : nat) : option tag_list :=
    list.head (omap (fun e => match e with EWay i _ tags => if decide (i = id) then Some tags else None | _ => None end) file).
  Lemma tags_of_way file id ns tags : NoDup (way_ids file) -> EWay id ns tags ∈ file -> tags_of file id = Some tags.
  Proof.
    intros Hnd Hin. unfold tags_of. induction file as [|e file IH]; [by apply elem_of_nil in Hin|]. cbn [omap list_omap].
    apply elem_of_cons in Hin as [<-|Hin]; [by rewrite decide_True|].
    destruct e as [i la lo t|i ns' t|i ms t]; [by apply IH| |by apply IH].
    cbn in Hnd. apply NoDup_cons in Hnd as [Hni Hnd]. rewrite decide_False; [by apply IH|]. intros ->. apply Hni. unfold way_ids. apply elem_of_list_In, in_flat_map. exists (EWay id ns tags). split; [by apply elem_of_list_In|by left].
  Qed.
  (** The time in milliseconds that an arc takes with the speed of its way in kilometres per hour *)
  Definition travel_time_of (memory : list N) (file : list (element D tag_list)) (a : arc (F := F)) : N :=
    match tags_of file (x_way a) with Some tags => match get_osm_way_speed memory tags with Some speed => (x_dist a * 3600 / speed)%N | None => 0%N end | None => 0%N end.

  (** Routes for cars, by their travel time. Forbidden turns are not part of the graph and are ignored; arcs are shorter than 238610 metres, see C54. *)
  Theorem C70_car : forall turn_matches std_sort std_sort' memory all (file : list (element D tag_list)),
    let used := fun _ : nat => is_osm_way_used_by_cars in
    length memory = 1024 -> c_strings file -> NoDup (way_ids file) -> (asserts = true -> forall m, load_osm_id_mapping None used all file = Some m -> mapping_assertion m = Some tt) -> positions_comparable file ->
    exists (o : osm_graph (F := F)) nodes ways arcs, enum (routing None used all file) nodes /\ enum (is_way_of used file) ways /\
      arcs ≡ₚ file_arcs dzero dplus geo_dist to_unsigned (position narrow fzero file) (fun x => bool_decide (x ∈ nodes)) (fun x => bool_decide (x ∈ ways)) (rank ways) (fun _ _ tags => get_osm_car_direction_category tags) file /\
      length (g_way o) = length arcs /\ length (g_head o) = length arcs /\ (forall i a, arcs !! i = Some a -> arc_entry GeoFirstLast nodes ways o i a) /\
      (sort_perm (fun x => x) (g_way o) (std_sort (seq 0 (length (g_way o)))) -> sort_perm (fun x => x) (g_head o) (std_sort' (seq 0 (length (g_head o)))) ->
       exists g, simple_load_osm_car_routing_graph_from_pbf narrow fzero dzero dplus geo_dist to_unsigned turn_matches std_sort std_sort' asserts memory all file = Some g /\ car_head g = g_head o /\
       (nodes <> [] -> (N.of_nat (length nodes) < 2 ^ 32)%N -> (forall a, a ∈ arcs -> (x_dist a < 238610)%N) ->
        routable (car_first_out g) (car_head g) (car_travel_time g) (car_lat g) (car_lon g) nodes arcs (travel_time_of memory file))).
  Proof.
    intros turn_matches std_sort std_sort' memory all file used Hmem Hz Hnd Hass Hpos.
    destruct (C54_car_partial narrow fzero dzero dplus geo_dist to_unsigned turn_matches std_sort std_sort' asserts memory all file Hmem Hz Hnd Hass) as (o & nodes & ways & arcs & En & Ew & Hcsr & _ & Ht & Hla & Hlo & Harcs & Hl1 & Hl2 & Hl3 & Hent & H).
    exists o, nodes, ways, arcs. do 4 (split; [done|]). split; [done|]. split; [exact Hent|]. intros Hs1 Hs2. destruct (H Hs1 Hs2) as (t & l & c & E & _ & Hlt & Htime).
    eexists. split; [exact E|]. split; [done|]. intros Hne H32 Hdist. cbn.
    assert (forall i a, arcs !! i = Some a -> t !! i = Some (travel_time_of memory file a) /\ (travel_time_of memory file a <= inf_weight)%N) as Hw.
    { intros i a Ha. destruct (Htime i a Ha) as (ns & tags & speed & Hin & _ & Es & Hsp & Hti). pose proof (Hdist a (elem_of_list_lookup_2 _ _ _ Ha)) as Hd. rewrite (Hti Hd).
      unfold travel_time_of. rewrite (tags_of_way _ _ _ _ Hnd Hin), Es. split; [done|].
      assert (x_dist a * 3600 / speed <= x_dist a * 3600 / 1)%N by (apply N.div_le_compat_l; lia). rewrite N.div_1_r in *. unfold inf_weight. lia. }
    apply (graph_routable file); try done; [apply En| |].
    - intros i a Ha. destruct (Hent i a Ha) as [H1 H2 _ _ _ _]. split; [done|]. split; [done|]. by apply Hw.
    - intros a Ha. apply elem_of_list_lookup in Ha as (i & Ha). by eapply Hw.
  Qed.
End routes.
Print Assumptions C70_car.
Print Assumptions C70_pedestrian.
Print Assumptions C70_bicycle.

(** *** Example: pedestrians in the street file of C54 get from node 1 (local id 0) to node 2 (local id 1) through node 4, along node 3. *)
Example C70_hypotheses : nth_element_ok sort_nth /\ (forall part b, garbage_ok part (example_garbage part b)) /\
  positions_comparable (fun x : Z => x) 0%Z Z.add Z.sub Z.ltb street_file /\ NoDup (way_ids street_file).
Proof.
  split; [apply sort_nth_ok|]. split; [apply example_garbage_ok|]. split; [|apply street_hypotheses].
  exists (fun _ => True). split; [|done]. split; intros; rewrite ?Z.ltb_lt, ?Z.ltb_irrefl in *; try done; lia.
Qed.
Example C70_ex : exists g tail order c m q,
  simple_load_osm_pedestrian_routing_graph_from_pbf (fun x => x) 0%Z 0%Z Z.add manhattan Z.to_N grid_turn (fun l => l) (fun l => l) false false street_file = Some g /\
  invert_inverse_vector (ped_first_out g) = Some tail /\
  nested_dissection_order_by_coordinates false Z.add Z.sub Z.ltb sort_nth example_garbage (length (ped_first_out g) - 1) tail (ped_head g) (ped_lat g) (ped_lon g) = Some order /\
  build_cch false false true order tail (ped_head g) = Some c /\ customize c (ped_dist g) (new_metric c) = Some m /\
  exec_all c (one_query m 0 1) (new_query c) = Some q /\ q_get_distance q = Some 3000%N /\ q_node_path c m q = Some [0; 2; 1].
Proof.
  eexists _, _, _, _, _, _. split; [vm_compute; reflexivity|]. split; [vm_compute; reflexivity|]. split; [vm_compute; reflexivity|].
  split; [vm_compute; reflexivity|]. split; [vm_compute; reflexivity|]. split; [vm_compute; reflexivity|]. split; vm_compute; reflexivity.
Qed.
