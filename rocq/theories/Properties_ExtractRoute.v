(** C75: from an OSM file over the files of osm_extract to the distances between OSM nodes. *)
From Coq Require Import String.
From Verif Require Import Base UtilSpec GraphSpec PathSpec ProtobufModel VectorIoModel PermutationModel DistanceToolModel DistanceToolSpec DistanceToolProofs DistanceToolChProofs Properties_VectorIo Properties_DistanceTool
  FlowModel FlowSpec NestedModel NestedSpec InertialModel InertialSpec Properties_Inertial OrderToolModel OrderToolSpec OrderToolProofs Properties_OrderTool
  CchModel CchBuildModel CchApiSpec ChFileModel ChFileProofs IdMapperModel TagMapProofs OsmGraphModel OsmGraphSpec OsmTurnModel OsmTurnSpec OsmIdProofs OsmLoadProofs OsmScanProofs OsmProfileModel OsmProfileSpec OsmSimpleModel OsmSimpleProofs Properties_OsmGraph Properties_OsmTurn Properties_OsmSimple
  OsmRouteSpec OsmRouteProofs Properties_OsmRoute ExtractModel ExtractSpec ExtractProofs Properties_Extract ExtractRouteSpec WalkSpec.
Ltac Zify.zify_post_hook ::= idtac.

Lemma sorted_nodup (l : list nat) : StronglySorted lt l -> NoDup l.
Proof. induction 1 as [|x l _ IH Hx]; constructor; [|done]. intros Hin. rewrite Forall_forall in Hx. specialize (Hx _ Hin). lia. Qed.
Section transfer.
  Context {F : Type} (nodes : list nat) (g : osm_graph (F := F)) (w : list N) (arcs : list (arc (F := F))) (weight : arc (F := F) -> N).
  Hypothesis Hss : StronglySorted lt nodes.
  Hypothesis Hcsr : csr (length nodes) (g_first_out g) (g_head g).
  Hypothesis Ht : tails_ok (g_first_out g) (g_tail g) (g_head g).
  Hypothesis Hla : length (g_head g) = length arcs.
  Hypothesis Hlw : length w = length arcs.
  Hypothesis Hent : forall i a, arcs !! i = Some a -> (exists t, nodes !! t = Some (x_tail a) /\ g_tail g !! i = Some t) /\ (exists h, nodes !! h = Some (x_head a) /\ g_head g !! i = Some h) /\ w !! i = Some (weight a).
  Hypothesis Hwi : forall a, a ∈ arcs -> (weight a <= inf_weight)%N.
  Hypothesis H32 : (N.of_nat (length nodes) + 2 < 2 ^ 32)%N.
  Hypothesis H32' : (N.of_nat (length arcs) < 2 ^ 32)%N.

  Lemma nodes_nodup : NoDup nodes.
  Proof. by apply sorted_nodup. Qed.
  Lemma rank_node x : x ∈ nodes -> nodes !! OsmGraphSpec.rank nodes x = Some x.
  Proof. intros Hx. by apply (rank_lookup _ _ _ Hss). Qed.
  Lemma fo_len : length (g_first_out g) - 1 = length nodes.
  Proof. rewrite (csr_len _ _ _ Hcsr). apply Nat.sub_0_r. Qed.
  Lemma weights_inf : Forall (fun x => (x <= inf_weight)%N) w.
  Proof.
    apply Forall_lookup_2. intros i x Hx. destruct (lookup_lt_is_Some_2 arcs i) as [a Ha]; [rewrite <- Hlw; by eapply lookup_lt_Some|]. destruct (Hent i a Ha) as (_ & _ & Hw). simplify_eq. apply Hwi. by eapply elem_of_list_lookup_2.
  Qed.
  Lemma extract_stored : stored_graph (g_first_out g) (g_tail g) (g_head g) w.
  Proof.
    split; [by rewrite fo_len|done|lia| | |].
    - unfold fits32. rewrite (csr_len _ _ _ Hcsr). change (2 ^ 32)%N with 4294967296%N in *. lia.
    - unfold fits32. by rewrite Hla.
    - eapply Forall_impl; [apply weights_inf|]. intros x Hx. cbv beta in *. unfold inf_weight in Hx. change (2 ^ 32)%N with 4294967296%N. lia.
  Qed.
  Lemma extract_queries source target : osm_queries nodes source target -> stored_queries (length (g_first_out g) - 1) (OsmGraphSpec.rank nodes <$> source) (OsmGraphSpec.rank nodes <$> target).
  Proof.
    intros (H1 & H2 & H3 & H4). rewrite fo_len. split; [by destruct source|]. split; [by rewrite !fmap_length|].
    split; apply Forall_fmap; (eapply Forall_impl; [eassumption|]); intros x Hx; eapply lookup_lt_Some, rank_node, Hx.
  Qed.
  Lemma extract_answers source target dist : osm_queries nodes source target -> DistanceToolSpec.answers (g_tail g) (g_head g) w (OsmGraphSpec.rank nodes <$> source) (OsmGraphSpec.rank nodes <$> target) dist ->
    length dist = length source /\ forall i x y d, source !! i = Some x -> target !! i = Some y -> dist !! i = Some d -> shortest_route arcs weight x y d.
  Proof.
    intros (_ & _ & H3 & H4) [Hl H]. rewrite fmap_length in Hl. split; [done|]. intros i x y d Hx Hy Hd. rewrite Forall_forall in H3, H4.
    pose proof (rank_node _ (H3 _ (elem_of_list_lookup_2 _ _ _ Hx))) as Rx. pose proof (rank_node _ (H4 _ (elem_of_list_lookup_2 _ _ _ Hy))) as Ry.
    eapply (distance_route nodes (g_tail g) (g_head g) w arcs weight); [apply nodes_nodup|rewrite (proj1 Ht); done|exact Hent|exact Rx|exact Ry|].
    apply (H i); rewrite ?list_lookup_fmap, ?Hx, ?Hy; done.
  Qed.
  Lemma walk_end s p t : awalk (g_tail g) (g_head g) s p t -> s < length nodes -> t < length nodes.
  Proof. induction 1 as [|u e v p t _ Hh _ IH]; [done|]. intros _. apply IH. pose proof (csr_head _ _ _ Hcsr) as H. eapply H, elem_of_list_lookup_2, Hh. Qed.
  Lemma extract_below x : x ∈ nodes -> routes_below arcs weight x -> distances_below (g_tail g) (g_head g) w (OsmGraphSpec.rank nodes x).
  Proof.
    intros Hx Hb p v Hp _. pose proof (rank_node _ Hx) as Rx. destruct (lookup_lt_is_Some_2 nodes v) as [y Hy]; [eapply walk_end; [exact Hp|by eapply lookup_lt_Some]|].
    assert (length (g_tail g) = length arcs) as Hlt by (rewrite (proj1 Ht); done).
    destruct (walk_route nodes (g_tail g) (g_head g) w arcs weight Hlt Hent _ _ _ _ _ Hp Rx Hy) as (r & _ & Hr & _). destruct (Hb r y Hr) as (r' & Hr' & HL).
    destruct (route_walk nodes (g_tail g) (g_head g) w arcs weight nodes_nodup Hent _ _ _ _ _ Hr' Rx Hy) as (p' & Hp' & HL'). exists p'. split; [done|]. by rewrite HL'.
  Qed.
End transfer.

Section routes.
  Context {D F : Type} (narrow : D -> F) (fzero : F) (dzero : D) (dplus : D -> D -> D) (geo_dist : F -> F -> F -> F -> D) (to_unsigned : D -> N).
  Context (turn_matches : turn_direction -> F * F -> F * F -> F * F -> bool) (std_sort std_sort' : list nat -> list nat) (asserts : bool) (encode : F -> list N) (memory : list N).
  Let used (_ : nat) (tags : tag_list) : bool := is_osm_way_used_by_cars tags.
  (** [nodes], [ways] and [arcs] are those of a file, for cars. *)
  Definition car_network (file : list (element D tag_list)) (nodes ways : list nat) (arcs : list (arc (F := F))) : Prop :=
    enum (routing None used false file) nodes /\ enum (is_way_of used file) ways /\
    arcs ≡ₚ file_arcs dzero dplus geo_dist to_unsigned (position narrow fzero file) (fun x => bool_decide (x ∈ nodes)) (fun x => bool_decide (x ∈ ways)) (OsmGraphSpec.rank ways) (fun _ _ tags => get_osm_car_direction_category tags) file.
  (** The conditions of C74, and that the network is not empty, that its numbers fit into 32 bits and that its arcs are shorter than 238610 metres, see C54. *)
  Definition extractable (file : list (element D tag_list)) : Prop :=
    length memory = 1024 /\ c_strings file /\ NoDup (way_ids file) /\ small_ids file /\ (asserts = true -> forall m, load_osm_id_mapping None used false file = Some m -> mapping_assertion m = Some tt) /\
    forall nodes ways arcs, car_network file nodes ways arcs -> arcs <> [] /\ (N.of_nat (length nodes) + 2 < 2 ^ 32)%N /\ (N.of_nat (length arcs) < 2 ^ 32)%N /\ (forall a, a ∈ arcs -> (x_dist a < 238610)%N).
  Let extract := osm_extract narrow fzero dzero dplus geo_dist to_unsigned turn_matches std_sort std_sort' asserts encode memory.

  (** The graph in the files, with times and with lengths *)
  Lemma extracted_graph file : extractable file -> exists nodes ways arcs (g : osm_graph (F := F)) time rep files, car_network file nodes ways arcs /\ extract file = Some (rep, files) /\
    xf_first_out files = id_file (g_first_out g) /\ xf_head files = id_file (g_head g) /\ xf_geo_distance files = word_file (g_dist g) /\ xf_travel_time files = word_file time /\
    xf_latitude files = concat (encode <$> g_lat g) /\ xf_longitude files = concat (encode <$> g_lon g) /\
    g_lat g = map (fun x => (position narrow fzero file x).1) nodes /\ g_lon g = map (fun x => (position narrow fzero file x).2) nodes /\
    StronglySorted lt nodes /\ csr (length nodes) (g_first_out g) (g_head g) /\ tails_ok (g_first_out g) (g_tail g) (g_head g) /\ length (g_head g) = length arcs /\ length (g_dist g) = length arcs /\ length time = length arcs /\
    (forall i a, arcs !! i = Some a -> (exists t, nodes !! t = Some (x_tail a) /\ g_tail g !! i = Some t) /\ (exists h, nodes !! h = Some (x_head a) /\ g_head g !! i = Some h) /\
       g_dist g !! i = Some (x_dist a) /\ time !! i = Some (travel_time_of memory file a)) /\
    (forall a, a ∈ arcs -> (x_dist a <= inf_weight)%N /\ (travel_time_of memory file a <= inf_weight)%N) /\ arcs <> [] /\ (N.of_nat (length nodes) + 2 < 2 ^ 32)%N /\ (N.of_nat (length arcs) < 2 ^ 32)%N.
  Proof.
    intros (Hm & Hz & Hnd & Hsm & Hass & Hnet).
    destruct (C74_extract_partial narrow fzero dzero dplus geo_dist to_unsigned turn_matches std_sort std_sort' asserts encode memory file Hm Hz Hnd Hsm Hass) as (nodes & ways & arcs & En & Ew & Ha & _ & H).
    assert (car_network file nodes ways arcs) as Hn by done. destruct (Hnet _ _ _ Hn) as (Hne & N1 & N2 & Hd).
    destruct (H Hne) as (g & time & names & speeds & nf & wf & rep & E & Hcsr & _ & Ht & Hla & Hlo & L1 & L2 & _ & L4 & Hent & _ & _ & Hway & _ & _ & _).
    assert (forall i a, arcs !! i = Some a -> time !! i = Some (travel_time_of memory file a) /\ (travel_time_of memory file a <= inf_weight)%N) as Hw.
    { intros i a Hi. destruct (Hent i a Hi) as [_ _ (w & Hw1 & Hw2) _ _ _]. assert (x_way a ∈ ways) as Hid by (by eapply elem_of_list_lookup_2).
      destruct (way_in_file used file ways _ Ew Hid) as (ns & tags & Hin & _). destruct (Hway _ _ _ _ Hw1 Hin) as (name & speed & _ & _ & _ & Es & Hsp & Hti).
      pose proof (Hd a (elem_of_list_lookup_2 _ _ _ Hi)) as Hda. rewrite (Hti i a Hi eq_refl Hda).
      unfold travel_time_of. rewrite (tags_of_way _ _ _ _ Hnd Hin), Es. split; [done|].
      assert (x_dist a * 3600 / speed <= x_dist a * 3600 / 1)%N by (apply N.div_le_compat_l; lia). rewrite N.div_1_r in *. unfold inf_weight. lia. }
    exists nodes, ways, arcs, g, time, rep. eexists. split; [done|]. split; [exact E|]. cbn [xf_first_out xf_head xf_geo_distance xf_travel_time xf_latitude xf_longitude].
    do 8 (split; [done|]). split; [apply En|]. do 5 (split; [done|]). split; [|split; [|done]].
    - intros i a Hi. destruct (Hent i a Hi) as [H1 H2 _ H3 _ _]. do 3 (split; [done|]). by apply Hw.
    - intros a Hin. split; [pose proof (Hd a Hin); unfold inf_weight; lia|]. apply elem_of_list_lookup in Hin as (i & Hi). by eapply Hw.
  Qed.

  (** Distances of Dijkstra's algorithm, by travel time and by length *)
  Theorem C75_dijkstra : forall file, extractable file ->
    exists nodes ways arcs rep files, car_network file nodes ways arcs /\ extract file = Some (rep, files) /\ forall source target, osm_queries nodes source target ->
      ((forall x, x ∈ source -> routes_below arcs (travel_time_of memory file) x) ->
       finds_routes nodes arcs (travel_time_of memory file) (run_dijkstra (xf_first_out files) (xf_head files) (xf_travel_time files)) source target) /\
      ((forall x, x ∈ source -> routes_below arcs x_dist x) ->
       finds_routes nodes arcs x_dist (run_dijkstra (xf_first_out files) (xf_head files) (xf_geo_distance files)) source target).
  Proof.
    intros file Hx. destruct (extracted_graph file Hx) as (nodes & ways & arcs & g & time & rep & files & Hn & E & E1 & E2 & E3 & E4 & _ & _ & _ & _ & Hss & Hcsr & Ht & L1 & L2 & L3 & Hent & Hwi & Hne & N1 & N2).
    exists nodes, ways, arcs, rep, files. rewrite E1, E2, E3, E4. split; [done|]. split; [done|]. intros source target Hq. assert (g_head g <> []) as Hh by (intros H; rewrite H in L1; by destruct arcs).
    assert (forall weight w, length w = length arcs -> (forall i a, arcs !! i = Some a -> w !! i = Some (weight a)) -> (forall a, a ∈ arcs -> (weight a <= inf_weight)%N) -> (forall x, x ∈ source -> routes_below arcs weight x) ->
      finds_routes nodes arcs weight (run_dijkstra (id_file (g_first_out g)) (id_file (g_head g)) (word_file w)) source target) as H.
    { intros weight w L Hw Hi Hb. assert (forall i a, arcs !! i = Some a -> (exists t, nodes !! t = Some (x_tail a) /\ g_tail g !! i = Some t) /\ (exists h, nodes !! h = Some (x_head a) /\ g_head g !! i = Some h) /\ w !! i = Some (weight a)) as He.
      { intros i a Ha. destruct (Hent i a Ha) as (H1 & H2 & _). split; [done|]. split; [done|]. by apply Hw. }
      destruct (C58_dijkstra_partial (g_first_out g) (g_tail g) (g_head g) w (OsmGraphSpec.rank nodes <$> source) (OsmGraphSpec.rank nodes <$> target)) as (dist & Ed & Ha).
      { by eapply extract_stored. } { done. } { by eapply extract_queries. }
      { intros s Hs. apply elem_of_list_fmap in Hs as (x & -> & Hs). eapply extract_below; try done; [|by apply Hb]. destruct Hq as (_ & _ & Hq & _). rewrite Forall_forall in Hq. by apply Hq. }
      exists dist. split; [exact Ed|]. by eapply extract_answers. }
    split; intros Hb; apply H; try done.
    - intros i a Ha. by apply (Hent i a).
    - intros a Ha. by apply Hwi.
    - intros i a Ha. by apply (Hent i a).
    - intros a Ha. by apply Hwi.
  Qed.
  (** Distances of a contraction hierarchy, by travel time *)
  Theorem C75_hierarchy : forall file pad mem, extractable file -> length pad = 4 -> memory_ok mem ->
    exists nodes ways arcs rep files, car_network file nodes ways arcs /\ extract file = Some (rep, files) /\
      ((forall fo tail head w, load_ids (xf_first_out files) = Some (Ret fo) -> invert_inverse_vector fo = Some tail -> load_ids (xf_head files) = Some (Ret head) -> load_words (xf_travel_time files) = Some (Ret w) ->
          hierarchy_fits (length nodes) tail head w) ->
       exists ch, compute_contraction_hierarchy asserts pad mem (xf_first_out files) (xf_head files) (xf_travel_time files) = Some (Ret ch) /\
         forall source target, osm_queries nodes source target -> finds_routes nodes arcs (travel_time_of memory file) (run_ch_queries ch) source target).
  Proof.
    intros file pad mem Hx Hpad Hmem. destruct (extracted_graph file Hx) as (nodes & ways & arcs & g & time & rep & files & Hn & E & E1 & E2 & _ & E4 & _ & _ & _ & _ & Hss & Hcsr & Ht & L1 & L2 & L3 & Hent & Hwi & Hne & N1 & N2).
    exists nodes, ways, arcs, rep, files. rewrite E1, E2, E4. split; [done|]. split; [done|]. intros Hfit. assert (g_head g <> []) as Hh by (intros H; rewrite H in L1; by destruct arcs).
    assert (forall i a, arcs !! i = Some a -> (exists t, nodes !! t = Some (x_tail a) /\ g_tail g !! i = Some t) /\ (exists h, nodes !! h = Some (x_head a) /\ g_head g !! i = Some h) /\ time !! i = Some (travel_time_of memory file a)) as He.
    { intros i a Ha. destruct (Hent i a Ha) as (H1 & H2 & _ & H3). done. }
    assert (forall a, a ∈ arcs -> (travel_time_of memory file a <= inf_weight)%N) as Hi by (intros a Ha; by apply Hwi).
    assert (stored_graph (g_first_out g) (g_tail g) (g_head g) time) as Hst by (by eapply extract_stored). pose proof Hst as [Hc Htl HL Fn Fm Fw]. destruct (csr_fits _ _ Hc Fn Fm) as [F1 F2].
    destruct (tails_exist (g_first_out g) (g_head g) Hc) as (tail & Et & Ht'). assert (tail = g_tail g) as -> by (by eapply tails_unique).
    destruct (C58_hierarchy_partial asserts pad mem (g_first_out g) (g_tail g) (g_head g) time Hpad Hmem Hst Hh) as (ch & Ech & H).
    { rewrite (csr_len _ _ _ Hcsr). change (2 ^ 32)%N with 4294967296%N in *. lia. }
    { rewrite (fo_len nodes g Hcsr). apply (Hfit (g_first_out g) (g_tail g) (g_head g) time); [by apply load_id_file|done|by apply load_id_file|by apply load_word_file]. }
    exists ch. split; [exact Ech|]. intros source target Hq. destruct (H _ _ (extract_queries nodes g Hss Hcsr source target Hq)) as (dist & Ed & Ha). exists dist. split; [exact Ed|]. by eapply extract_answers.
  Qed.
  (** An order from the files, a CCH, a metric: distances and paths. *)
  Theorem C75_order : forall file fplus fminus flt nth_element garbage value ok log filter, extractable file ->
    nth_element_ok nth_element -> (forall part b, garbage_ok part (garbage part b)) -> positions_comparable narrow fzero fplus fminus flt file -> image 4 encode value ok ->
    (forall x, ok (position narrow fzero file x).1 /\ ok (position narrow fzero file x).2) -> filter || log = true ->
    exists nodes ways arcs rep files order_file fo tail head time order c m, car_network file nodes ways arcs /\ extract file = Some (rep, files) /\
      compute_nested_dissection_order asserts fplus fminus flt nth_element garbage value (xf_first_out files) (xf_head files) (xf_latitude files) (xf_longitude files) = Some (Ret order_file) /\
      load_ids (xf_first_out files) = Some (Ret fo) /\ invert_inverse_vector fo = Some tail /\ load_ids (xf_head files) = Some (Ret head) /\ load_words (xf_travel_time files) = Some (Ret time) /\ load_ids order_file = Some (Ret order) /\
      build_cch asserts log filter order tail head = Some c /\ customize c time (new_metric c) = Some m /\
      forall x y, x ∈ nodes -> y ∈ nodes ->
      exists q d, exec_all c (one_query m (OsmGraphSpec.rank nodes x) (OsmGraphSpec.rank nodes y)) (new_query c) = Some q /\ q_get_distance q = Some d /\ shortest_route arcs (travel_time_of memory file) x y d /\
        ((d < inf_weight)%N -> exists p r, q_arc_path c m time q = Some p /\ mapM (fun e => arcs !! e) p = Some r /\ route arcs x r y /\ d = route_length (travel_time_of memory file) r).
  Proof.
    intros file fplus fminus flt nth_element garbage value ok log filter Hx Hnth Hg (P & HP & Hpos) Him Hok Hfl.
    destruct (extracted_graph file Hx) as (nodes & ways & arcs & g & time & rep & files & Hn & E & E1 & E2 & _ & E3 & E4 & E5 & Hlat & Hlon & Hss & Hcsr & Ht & L1 & L2 & L3 & Hent & Hwi & Hne & N1 & N2).
    assert (forall i a, arcs !! i = Some a -> (exists t, nodes !! t = Some (x_tail a) /\ g_tail g !! i = Some t) /\ (exists h, nodes !! h = Some (x_head a) /\ g_head g !! i = Some h) /\ time !! i = Some (travel_time_of memory file a)) as He.
    { intros i a Ha. destruct (Hent i a Ha) as (H1 & H2 & _ & H3). done. }
    assert (forall a, a ∈ arcs -> (travel_time_of memory file a <= inf_weight)%N) as Hi by (intros a Ha; by apply Hwi).
    assert (stored_graph (g_first_out g) (g_tail g) (g_head g) time) as Hst by (by eapply extract_stored). pose proof Hst as [Hc Htl HL Fn Fm Fw]. destruct (csr_fits _ _ Hc Fn Fm) as [F1 F2].
    destruct (tails_exist (g_first_out g) (g_head g) Hc) as (tail & Et & Ht'). assert (tail = g_tail g) as -> by (by eapply tails_unique).
    pose proof (fo_len nodes g Hcsr) as Hfo. assert (0 < length nodes) as Hpos'.
    { destruct arcs as [|a arcs]; [done|]. destruct (Hent 0 a eq_refl) as ((t & H1 & _) & _). apply lookup_lt_Some in H1. lia. }
    destruct (C69_distances asserts log filter _ fplus fminus flt nth_element garbage encode value ok (g_first_out g) (g_tail g) (g_head g) time (g_lat g) (g_lon g)) as (f6 & order & c & m & E6 & E7 & E8 & E9 & Hq).
    { done. } { done. }
    { exists P. split; [done|]. intros i a b Ha Hb. rewrite Hlat in Ha. rewrite Hlon in Hb. change (@map nat F) with (@fmap list list_fmap nat F) in Ha, Hb. rewrite list_lookup_fmap in Ha, Hb.
      destruct (nodes !! i) as [x|]; [|done]. cbn in Ha, Hb. simplify_eq. apply Hpos. }
    { done. } { rewrite Hlat. apply Forall_map, Forall_true. intros x. apply Hok. } { rewrite Hlon. apply Forall_map, Forall_true. intros x. apply Hok. }
    { done. } { by eapply weights_inf. } { rewrite Hlat, map_length. lia. } { rewrite Hlon, map_length. lia. } { done. }
    exists nodes, ways, arcs, rep, files, f6, (g_first_out g), (g_tail g), (g_head g), time, order, c, m. rewrite E1, E2, E3, E4, E5. split; [done|]. split; [done|]. split; [exact E6|].
    split; [by apply load_id_file|]. split; [done|]. split; [by apply load_id_file|]. split; [by apply load_word_file|]. do 3 (split; [done|]).
    intros x y Hx' Hy'. pose proof (rank_node nodes Hss x Hx') as Rx. pose proof (rank_node nodes Hss y Hy') as Ry. rewrite Hfo in Hq.
    destruct (Hq (OsmGraphSpec.rank nodes x) (OsmGraphSpec.rank nodes y)) as (q & d & Q1 & Q2 & Q3 & Q4); [by eapply lookup_lt_Some|by eapply lookup_lt_Some|]. exists q, d. split; [done|]. split; [done|].
    assert (length (g_tail g) = length arcs) as Hlt by (rewrite (proj1 Ht); done).
    split; [eapply (distance_route nodes (g_tail g) (g_head g) time arcs (travel_time_of memory file)); try done; by apply sorted_nodup|]. intros Hd. destruct (Q4 Hd) as (p & us & Ep & Hw & -> & _).
    destruct (walk_route nodes (g_tail g) (g_head g) time arcs _ Hlt He _ _ _ _ _ Hw Rx Ry) as (r & Er & Hr & HLr). exists p, r. done.
  Qed.
End routes.
Print Assumptions C75_dijkstra.
Print Assumptions C75_hierarchy.
Print Assumptions C75_order.

(** *** Example: the street file. From node 1 to node 4 cars need 72 + 144 seconds; there is no way back. *)
Local Notation street_net := (car_network (fun x => x) 0%Z 0%Z Z.add manhattan Z.to_N).
Definition street_arcs : list (arc (F := Z)) :=
  file_arcs 0%Z Z.add manhattan Z.to_N (position (fun x => x) 0%Z street_file) (fun x => bool_decide (x ∈ street_nodes)) (fun x => bool_decide (x ∈ street_ways)) (OsmGraphSpec.rank street_ways) (fun _ _ tags => get_osm_car_direction_category tags) street_file.
Lemma street_net_unique nodes ways arcs : street_net street_file nodes ways arcs -> nodes = street_nodes /\ ways = street_ways /\ arcs ≡ₚ street_arcs.
Proof.
  intros (En & Ew & Ha). destruct street_network as [En' Ew']. assert (nodes = street_nodes) as -> by (eapply enum_unique; [exact En|exact En']). assert (ways = street_ways) as -> by (eapply enum_unique; [exact Ew|exact Ew']). done.
Qed.
Example C75_hypotheses : extractable (fun x => x) 0%Z 0%Z Z.add manhattan Z.to_N false (replicate 1024 1%N) street_file /\ osm_queries street_nodes [1; 4] [4; 1] /\
  (forall x, x ∈ [1; 4] -> routes_below street_arcs (travel_time_of (replicate 1024 1%N) street_file) x).
Proof.
  split; [|split].
  - split; [apply replicate_length|]. split; [apply street_hypotheses|]. split; [apply street_hypotheses|]. split; [apply street_small|]. split; [done|].
    intros nodes ways arcs H. destruct (street_net_unique _ _ _ H) as (-> & -> & Ha). assert (length street_arcs = 3) as L by (vm_compute; reflexivity).
    split; [intros ->; apply Permutation_nil in Ha; by rewrite Ha in L|]. split; [by vm_compute|]. split; [rewrite Ha, L; by vm_compute|].
    intros a Hin. rewrite Ha in Hin. assert (Forall (fun a => (x_dist a < 238610)%N) street_arcs) as Hf; [|rewrite Forall_forall in Hf; by apply Hf].
    apply (bool_decide_unpack _). vm_compute. exact I.
  - split; [done|]. split; [done|]. split; apply (bool_decide_unpack _); vm_compute; exact I.
  - assert (forall x r y, route street_arcs x r y -> x ∈ [1; 2; 4] -> y = 4 \/ x <> 4 /\ (y = 1 \/ y = 2)) as H.
    { intros x r y H. assert (Forall (fun a : arc => x_tail a <> 4 /\ x_head a ∈ [1; 2; 4]) street_arcs) as Hf. { apply (bool_decide_unpack _). vm_compute. exact I. }
      rewrite Forall_forall in Hf. induction H as [x|a r y Ha H IH]; intros Hx.
      - apply elem_of_list_In in Hx. cbn in Hx. destruct (decide (x = 4)) as [-> |]; [by left|]. right. split; [done|]. destruct Hx as [<-|[<-|[<-|[]]]]; [by left|by right|done].
      - destruct (Hf a Ha) as [H1 H2]. destruct (IH H2) as [-> |[H3 H4]]; [by left|]. right. by split. }
    assert (exists a b c, street_arcs = [a; b; c] /\ x_tail a = 1 /\ x_head a = 2 /\ x_tail c = 2 /\ x_head c = 4 /\ Forall (fun a => (travel_time_of (replicate 1024 1%N) street_file a <= 1000000)%N) [a; b; c]) as (a & b & c & Ea & A1 & A2 & A3 & A4 & Hw).
    { eexists _, _, _. split; [vm_compute; reflexivity|]. do 4 (split; [reflexivity|]). repeat (constructor; [by vm_compute|]). constructor. }
    rewrite Forall_cons in Hw. destruct Hw as [Wa Hw]. rewrite Forall_cons in Hw. destruct Hw as [_ Hw]. rewrite Forall_cons in Hw. destruct Hw as [Wc _].
    assert (a ∈ street_arcs) as Ia by (rewrite Ea; left). assert (c ∈ street_arcs) as Ic by (rewrite Ea; right; right; left).
    pose proof (route_cons street_arcs c [] _ Ic (route_nil _ _)) as Rc. rewrite A3, A4 in Rc. pose proof (route_cons street_arcs a [] _ Ia (route_nil _ _)) as Ra. rewrite A1, A2 in Ra.
    assert (route street_arcs 1 [a; c] 4) as Rac. { pose proof (route_cons street_arcs a [c] 4 Ia) as R. rewrite A1, A2 in R. by apply R. }
    intros x Hx r y Hr. assert (x = 1 \/ x = 4) as [-> | ->] by (apply elem_of_list_In in Hx; cbn in Hx; destruct Hx as [<-|[<-|[]]]; [by left|by right]).
    + destruct (H _ _ _ Hr) as [-> |[_ [-> | ->]]]; [apply (bool_decide_unpack _); vm_compute; exact I|exists [a; c]|exists []|exists [a]].
      * split; [|unfold route_length, inf_weight; cbn [foldr]; lia]. exact Rac.
      * split; [constructor|done].
      * split; [|unfold route_length, inf_weight; cbn [foldr]; lia]. exact Ra.
    + destruct (H _ _ _ Hr) as [-> |[? _]]; [apply (bool_decide_unpack _); vm_compute; exact I| |done]. exists []. split; [constructor|done].
Qed.
Example C75_ex : exists rep files, street_extract street_file = Some (rep, files) /\
  run_dijkstra (xf_first_out files) (xf_head files) (xf_travel_time files) (id_file (OsmGraphSpec.rank street_nodes <$> [1; 4])) (id_file (OsmGraphSpec.rank street_nodes <$> [4; 1])) = Some (Ret (word_file [216000; inf_weight]%N)) /\
  (exists order_file, compute_nested_dissection_order false Z.add Z.sub Z.ltb sort_nth example_garbage (fun bs => Z.of_N (le_word bs)) (xf_first_out files) (xf_head files) (xf_latitude files) (xf_longitude files) = Some (Ret order_file)) /\
  exists ch, compute_contraction_hierarchy false [1; 2; 3; 4]%N ex_memory (xf_first_out files) (xf_head files) (xf_travel_time files) = Some (Ret ch) /\
    run_ch_queries ch (id_file (OsmGraphSpec.rank street_nodes <$> [1; 4])) (id_file (OsmGraphSpec.rank street_nodes <$> [4; 1])) = Some (Ret (word_file [216000; inf_weight]%N)).
Proof.
  eexists _, _. split; [vm_compute; reflexivity|]. split; [vm_compute; reflexivity|]. split; [eexists; vm_compute; reflexivity|]. eexists. split; [vm_compute; reflexivity|vm_compute; reflexivity].
Qed.
