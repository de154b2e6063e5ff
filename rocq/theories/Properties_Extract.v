(** C74, C75: osm_extract. *)
From Coq Require Import String.
From Verif Require Import Base UtilSpec GraphSpec PathSpec ProtobufModel TagMapProofs BitVectorModel IdMapperModel VectorIoModel OsmGraphModel OsmGraphSpec OsmScanProofs OsmIdProofs OsmLoadProofs OsmTurnModel OsmTurnSpec OsmTurnProofs Properties_OsmGraph Properties_OsmTurn
  OsmProfileModel OsmProfileSpec OsmProfileProofs Properties_OsmProfile OsmSimpleModel OsmSimpleProofs Properties_OsmSimple DistanceToolModel DistanceToolSpec DistanceToolProofs ExtractModel ExtractSpec ExtractProofs.
Ltac Zify.zify_post_hook ::= idtac.

(** The graph of C49 for the ways that cars use, in the directions of C52; the files contain this graph, with the travel times of C54, the names and the speeds of the ways and the OSM ids, and
    the numbers printed are those of the slowest arc. Partial: without arcs the behaviour of the program is undefined, and the travel times are only right for arcs
    shorter than 238610 metres. *)
Theorem C74_extract_partial : forall {D F} (narrow : D -> F) fzero dzero dplus geo_dist to_unsigned turn_matches std_sort std_sort' asserts encode garbage (file : list (element D tag_list)),
  let used := fun _ : nat => is_osm_way_used_by_cars in
  length garbage = 1024 -> c_strings file -> NoDup (way_ids file) -> small_ids file -> (asserts = true -> forall m, load_osm_id_mapping None used false file = Some m -> mapping_assertion m = Some tt) ->
  exists nodes ways arcs, enum (routing None used false file) nodes /\ enum (is_way_of used file) ways /\
    arcs ≡ₚ file_arcs dzero dplus geo_dist to_unsigned (position narrow fzero file) (fun x => bool_decide (x ∈ nodes)) (fun x => bool_decide (x ∈ ways)) (OsmGraphSpec.rank ways) (fun _ _ tags => get_osm_car_direction_category tags) file /\
    (arcs = [] -> osm_extract narrow fzero dzero dplus geo_dist to_unsigned turn_matches std_sort std_sort' asserts encode garbage file = None) /\
    (arcs <> [] -> exists g time names speeds node_file way_file rep,
      osm_extract narrow fzero dzero dplus geo_dist to_unsigned turn_matches std_sort std_sort' asserts encode garbage file =
        Some (rep, mkExtracted (id_file (g_first_out g)) (id_file (g_head g)) (word_file (g_dist g)) (word_file time) (id_file (g_way g)) (concat ((fun s => s ++ [0%N]) <$> names)) (word_file speeds)
          (concat (encode <$> g_lat g)) (concat (encode <$> g_lon g)) node_file way_file) /\
      csr (length nodes) (g_first_out g) (g_head g) /\ heads_sorted (g_first_out g) (g_head g) /\ tails_ok (g_first_out g) (g_tail g) (g_head g) /\
      g_lat g = map (fun x => (position narrow fzero file x).1) nodes /\ g_lon g = map (fun x => (position narrow fzero file x).2) nodes /\
      length (g_head g) = length arcs /\ length (g_dist g) = length arcs /\ length (g_way g) = length arcs /\ length time = length arcs /\ (forall i a, arcs !! i = Some a -> arc_entry GeoNone nodes ways g i a) /\
      length speeds = length ways /\ length names = length ways /\
      (forall w id ns tags, ways !! w = Some id -> EWay id ns tags ∈ file -> exists name speed, names !! w = Some name /\ way_name tags name /\ speeds !! w = Some speed /\ get_osm_way_speed garbage tags = Some speed /\ (1 <= speed)%N /\
        forall i a, arcs !! i = Some a -> x_way a = id -> (x_dist a < 238610)%N -> time !! i = Some (x_dist a * 3600 / speed)%N) /\
      set_file (routing None used false file) node_file /\ set_file (is_way_of used file) way_file /\
      (exists a, arcs !! r_arc rep = Some a /\ r_way rep = x_way a /\ r_length rep = x_dist a /\ time !! r_arc rep = Some (r_time rep) /\ (forall i t, time !! i = Some t -> (t <= r_time rep)%N) /\
        exists ns tags, EWay (r_way rep) ns tags ∈ file /\ get_osm_way_speed garbage tags = Some (r_speed rep))).
Proof.
  intros D F narrow fzero dzero dplus geo_dist to_unsigned turn_matches std_sort std_sort' asserts encode garbage file used Hg Hz Hnd Hsm Hass.
  destruct (C48_scan_partial None used false file) as (m & Em & _ & Hr & Hw).
  assert (good_mapping (2 ^ 63) m) as (_ & Gr & Gw).
  { eapply good_scan; [|exact Em]. intros id ns tags Hin. destruct (Hsm _ _ _ Hin) as [S1 S2]. unfold id_ok. change (2 ^ 62)%N with 4611686018427387904%N in *. change (2 ^ 63)%N with 9223372036854775808%N. split; [lia|].
    eapply Forall_impl; [exact S2|]. cbv beta. intros x Hx. lia. }
  destruct (C49_graph_partial narrow fzero dzero dplus geo_dist to_unsigned asserts None used false file (Some (fun _ _ tags => get_osm_car_direction_category tags)) None GeoNone m Em Hnd (fun H => Hass H m Em))
    as (g & mm & rm & wm & mods & nodes & ways & E & _ & En & Ew & _ & _ & Hwm & Hcsr & Hhs & Htl0 & Hla & Hlo & _ & arcs & Harcs & Hl0 & Hl1 & Hl2 & Hl3 & _ & Hent).
  destruct (mapper_numbers _ _ Hw) as (wm' & ways' & Ewm & Ew'' & Hwm'). assert (ways' = ways) as -> by (by eapply enum_unique).
  assert (forall id ns tags, EWay id ns tags ∈ file -> exists v, get_osm_way_speed garbage tags = Some v /\ (1 <= v < 2 ^ 31 - 1)%N) as Hspeed.
  { intros id ns tags Hin. apply C51_speed_range; [done|]. intros v Hv. by eapply Hz. }
  destruct (fill_ways_spec garbage wm' ways file (replicate (length ways) 0%N) (replicate (length ways) [])) as (speeds & names & Efill & Hsl & Hnl & Hsp); [done|apply Ew|done|apply replicate_length|apply replicate_length| |].
  { intros id ns tags Hin _. destruct (Hspeed _ _ _ Hin) as (v & -> & _). done. }
  assert (forall i a, arcs !! i = Some a -> exists ns tags speed, EWay (x_way a) ns tags ∈ file /\ get_osm_way_speed garbage tags = Some speed /\ (1 <= speed)%N /\
    g_way g !! i = Some (OsmGraphSpec.rank ways (x_way a)) /\ speeds !! OsmGraphSpec.rank ways (x_way a) = Some speed /\ ways !! OsmGraphSpec.rank ways (x_way a) = Some (x_way a)) as Harc.
  { intros i a Ha. destruct (Hent i a Ha) as [_ _ (w & Hw1 & Hw2) _ _ _]. pose proof Hw1 as Hw0. apply (rank_lookup _ _ _ (proj1 Ew)) in Hw1 as [Hid <-]. destruct (way_in_file used file ways _ Ew Hid) as (ns & tags & Hin & Hused).
    destruct (Hsp _ _ _ Hin Hid) as (v & Hv & Hv' & _). destruct (Hspeed _ _ _ Hin) as (v' & Hv'' & Hrg). exists ns, tags, v. split_and!; [done..| |done|done|done]. assert (v' = v) as -> by congruence. apply Hrg. }
  destruct (travel_times_spec (g_dist g) (g_way g) speeds) as (time & Etime & Htl & Ht); [lia| |].
  { intros i w Hi. destruct (lookup_lt_is_Some_2 arcs i) as [a Ha]; [apply lookup_lt_Some in Hi; lia|]. destruct (Harc i a Ha) as (ns & tags & speed & _ & _ & Hrg & Hi' & Hs & _). assert (w = OsmGraphSpec.rank ways (x_way a)) as -> by congruence. exists speed. split; [done|lia]. }
  assert (file_restrictions (D := D) (T := tag_list) None file = []) as Enone. { clear. unfold file_restrictions. induction file as [|[] file IH]; cbn; done. }
  exists nodes, ways, arcs. split; [done|]. split; [done|]. split; [done|]. unfold osm_extract. change (fun (_ : nat) (tags : tag_list) => is_osm_way_used_by_cars tags) with used.
  rewrite Em, bind_S. rewrite (popcount_ways _ _ _ Hw Ew), bind_S. rewrite Ewm, bind_S, Efill, bind_S. cbv beta iota. unfold load_osm_routing_graph. rewrite E, bind_S. cbv beta iota.
  rewrite Enone. cbn [forbidden_turns]. rewrite !bind_S. cbv beta iota. rewrite extract_times_eq by lia. rewrite Etime, bind_S. unfold extract_report. rewrite Hl1. split.
  - intros ->. done.
  - intros Hne. replace (length arcs) with (length time) by lia. destruct (slowest_spec time) as (a & t & Es & Hta & Hmax & _). { intros ->. apply Hne. apply nil_length_inv. cbn [length] in Htl. lia. }
    destruct (lookup_lt_is_Some_2 arcs a) as [x Hx]; [apply lookup_lt_Some in Hta; lia|]. destruct (Harc a x Hx) as (ns & tags & speed & H1 & H2 & H3 & H4 & H5 & H6). destruct (Hent a x Hx) as [_ _ _ Hdist _ _].
    rewrite Es, bind_S, bind_S, Hta, bind_S, Hdist, bind_S, H4, bind_S, H5, bind_S. rewrite (nu_global _ _ Hwm' _ _ H6). rewrite !bind_S.
    exists g, time, names, speeds. eexists _, _, _. split; [done|]. pose proof (graph_tails _ _ Hcsr (eq_trans Hl0 (eq_sym Hl1)) Htl0) as Htok. do 5 (split; [done|]). do 3 (split; [lia|]). split; [lia|]. split; [exact Hent|]. split; [done|]. split; [done|]. split; [|split; [|split]].
    + intros w id ns' tags' Hwi Hin. pose proof (proj1 (rank_lookup _ _ _ (proj1 Ew)) Hwi) as [Hid Hrk]. destruct (Hsp _ _ _ Hin Hid) as (v & Hv & Hv1 & Hv2). rewrite Hrk in Hv1, Hv2. destruct (Hspeed _ _ _ Hin) as (v' & Hv'' & Hrg).
      assert (v' = v) as -> by congruence. exists (get_osm_way_name tags'), v. split; [done|]. split; [apply name_spec|]. split; [done|]. split; [done|]. split; [apply Hrg|].
      intros i b Hb <- Hd. destruct (Harc i b Hb) as (ns2 & tags2 & sp2 & _ & _ & H3' & H4' & H5' & _). destruct (Hent i b Hb) as [_ _ _ Hdist' _ _]. rewrite (Ht i _ _ _ Hdist' H4' H5'). rewrite Hrk in H5'. assert (sp2 = v) as -> by congruence.
      rewrite travel_time_exact; [done| |lia]. change (2 ^ 32)%N with 4294967296%N. lia.
    + eapply set_file_saved; [exact Gr|done|done].
    + eapply set_file_saved; [exact Gw|done|done].
    + exists x. cbn. do 5 (split; [done|]). by exists ns, tags.
Qed.
Print Assumptions C74_extract_partial.

(** *** Example: the street file of C54. The arc from node 2 to node 4 is the slowest. *)
Local Open Scope string_scope.
Definition street_extract (file : list (element Z tag_list)) : option (report * extracted) :=
  osm_extract (fun x => x) 0%Z 0%Z Z.add manhattan Z.to_N grid_turn (fun l => l) (fun l => l) false (fun z => le_bytes 4 (Z.to_N z)) (replicate 1024 1%N) file.
Definition street_nodes : list nat := [1; 2; 4].
Definition street_ways : list nat := [10; 11].
Lemma street_network : enum (routing None (fun _ : nat => is_osm_way_used_by_cars) false street_file) street_nodes /\ enum (is_way_of (fun _ : nat => is_osm_way_used_by_cars) street_file) street_ways.
Proof.
  assert (used_ways (fun _ : nat => is_osm_way_used_by_cars) street_file = [(10, [1; 2]); (11, [2; 3; 4])]) as Hu by (vm_compute; reflexivity).
  assert (way_nodes (fun _ : nat => is_osm_way_used_by_cars) street_file = [1; 2; 2; 3; 4]) as Hn by (vm_compute; reflexivity).
  split; (split; [repeat constructor; lia|]); intros x.
  - unfold routing, way_end. rewrite Hu, Hn. split.
    + intros H. apply elem_of_list_In in H. cbn in H. destruct H as [<-|[<-|[<-|[]]]]; right; left; [exists 10, [1; 2]|exists 10, [1; 2]|exists 11, [2; 3; 4]]; (split; [apply (bool_decide_unpack _); vm_compute; exact I|]); [by left|by right|by right].
    + intros [(pred & H)|[(id & ns & H & Hx)|H]].
      * destruct H as (? & ? & ? & ? & _). done.
      * apply elem_of_list_In in H. cbn in H. destruct H as [[= <- <-]|[[= <- <-]|[]]]; cbn in Hx; destruct Hx as [[= <-]|[= <-]]; apply (bool_decide_unpack _); vm_compute; exact I.
      * assert (x = 2) as ->; [|apply (bool_decide_unpack _); vm_compute; exact I]. cbn in H. repeat (case_match; [subst; cbn in H; try lia|]); try lia; done.
  - unfold is_way_of. rewrite Hu. split.
    + intros H. apply elem_of_list_In in H. cbn in H. destruct H as [<-|[<-|[]]]; [exists [1; 2]|exists [2; 3; 4]]; apply (bool_decide_unpack _); vm_compute; exact I.
    + intros (ns & H). apply elem_of_list_In in H. cbn in H. destruct H as [[= <- <-]|[[= <- <-]|[]]]; apply (bool_decide_unpack _); vm_compute; exact I.
Qed.
Lemma street_small : small_ids street_file.
Proof.
  intros id ns tags Hin. unfold street_file in Hin. repeat (apply elem_of_cons in Hin as [Hin|Hin]); try (by apply elem_of_nil in Hin); try done; injection Hin as -> -> ->; (split; [done|]); repeat constructor.
Qed.
Example C74_ex : small_ids street_file /\ c_strings street_file /\ NoDup (way_ids street_file) /\ exists node_file way_file,
  street_extract street_file = Some (mkReport 2 144000 1000 25 11,
    mkExtracted (id_file [0; 1; 3; 3]) (id_file [1; 0; 2]) (word_file [1000; 1000; 1000]%N) (word_file [72000; 72000; 144000]%N) (id_file [0; 0; 1]) [0; 0]%N (word_file [50; 25]%N)
      (concat (le_bytes 4 <$> [0; 0; 500]%N)) (concat (le_bytes 4 <$> [0; 1000; 1500]%N)) node_file way_file).
Proof. split; [apply street_small|]. split; [apply street_hypotheses|]. split; [apply street_hypotheses|]. eexists _, _. vm_compute. reflexivity. Qed.
(** With a name *)
Example C74_name : get_osm_way_name (tagged [("name", "Main Street"); ("highway", "primary"); ("ref", "B 10")]) = bytes "Main Street;B 10".
Proof. by vm_compute. Qed.

(** What is missing: a file without ways for cars gives an empty graph, which the library handles, but the program reads the travel time of the arc invalid_id. *)
Theorem C74_no_arcs_refuted : exists file, NoDup (way_ids file) /\ c_strings file /\ small_ids file /\ street_extract file = None /\ is_Some (street_cars file [] []).
Proof. exists [ENode 1 0%Z 0%Z []]. split; [constructor|]. split; [intros id ns tags v Hin; by apply elem_of_list_singleton in Hin|]. split; [intros id ns tags Hin; by apply elem_of_list_singleton in Hin|]. split; [by vm_compute|]. eexists. vm_compute. reflexivity. Qed.
Print Assumptions C74_no_arcs_refuted.
(** Long arcs, as in C54: 858996 s are written as 2.54 s. *)
Theorem C74_time_refuted : exists file rep files, street_extract file = Some (rep, files) /\ xf_geo_distance files = word_file [238610; 238610]%N /\ xf_way_speed files = word_file [1]%N /\ xf_travel_time files = word_file [2540; 2540]%N /\ (238610 * 3600 / 1 = 858996000)%N.
Proof.
  exists [ENode 1 0%Z 0%Z []; ENode 2 0%Z 238610%Z []; EWay 10 [1; 2] (tagged [("route", "ferry"); ("maxspeed", "1")])]. eexists _, _. split; [vm_compute; reflexivity|]. by vm_compute.
Qed.
Print Assumptions C74_time_refuted.
