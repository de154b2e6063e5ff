(** * C73: from two texts in the DIMACS format to routes *)
From Verif Require Import Base UtilSpec GraphSpec PathSpec ProtobufModel VectorIoModel PermutationModel ChFileModel DistanceToolModel DistanceToolSpec DistanceToolProofs
  FlowModel FlowSpec NestedModel NestedSpec InertialModel InertialSpec OrderToolModel OrderToolSpec OrderToolProofs Properties_VectorIo Properties_Inertial Properties_OrderTool
  CchModel CchSpec CchBuildModel CchApiSpec TextModel TextSpec GraphToolModel GraphToolSpec GraphToolProofs Properties_GraphTool CoordToolModel CoordToolSpec CoordToolProofs FloatModel FloatProofs Properties_CoordTool
  DimacsRouteSpec DimacsRouteProofs WalkSpec.
From Coq Require String. Import String.StringSyntax.
Ltac Zify.zify_post_hook ::= idtac.

(** A text with arcs and a text with positions: the two programs that convert them and the one that computes an order write six files. The vectors in these files
    give a CCH; after the weights were customized, every query between two nodes gives the length of a shortest route along the arcs of the text, and
    the path that is unpacked has the nodes of such a route. Positions are IEEE floats. Nodes are counted from 0 in the files and from 1 in the texts. *)
Theorem C73_routes : forall asserts log filter nth_element garbage n arcs graph_text ps position_text lat lon,
  nth_element_ok nth_element -> (forall part b, garbage_ok part (garbage part b)) -> filter || log = true ->
  dimacs_file n arcs graph_text -> arcs_fit n arcs -> Forall (fun a => (snd a <= inf_weight)%N) arcs -> 0 < n ->
  positions_text n ps position_text -> positions n ps lat lon ->
  exists f_first_out f_head f_weight f_latitude f_longitude f_order first_out tail head weight order c m,
    convert_road_dimacs_graph graph_text = Some (Ret (f_first_out, f_head, f_weight)) /\
    convert_road_dimacs_coordinates store_position position_text = Some (Ret (f_latitude, f_longitude)) /\
    compute_nested_dissection_order asserts float_plus float_minus float_less nth_element garbage bytes_float f_first_out f_head f_latitude f_longitude = Some (Ret f_order) /\
    load_ids f_first_out = Some (Ret first_out) /\ invert_inverse_vector first_out = Some tail /\ load_ids f_head = Some (Ret head) /\ load_words f_weight = Some (Ret weight) /\ load_ids f_order = Some (Ret order) /\
    build_cch asserts log filter order tail head = Some c /\ customize c weight (new_metric c) = Some m /\
    forall s t, s < n -> t < n ->
    exists q x, exec_all c (one_query m s t) (new_query c) = Some q /\ q_get_distance q = Some x /\ text_distance arcs s t x /\
      ((x < inf_weight)%N -> exists r, text_route arcs s r t /\ text_length r = x /\ q_node_path c m q = Some (route_nodes r t)).
Proof.
  intros asserts log filter nth_element garbage n arcs gt ps pt lat lon Hnth Hg Hfl Hd Hfit Hw Hn Hpt Hpos.
  destruct (C60_convert n arcs gt Hd Hfit) as (fo & head & w & arcs' & E1 & Hst & Hsort). pose proof (sorted_same _ _ Hsort) as Hsame.
  assert (arcs_fit n arcs') as Hfit'.
  { destruct Hfit as (F1 & F2 & F3). split; [done|]. split.
    - destruct Hsort as (r & [Hp _] & [Hl _]). rewrite fmap_length in Hp. rewrite Hl, Hp, seq_length. done.
    - apply Forall_forall. intros a Ha. rewrite Forall_forall in F3. by apply F3, Hsame. }
  destruct (stores_graph _ _ _ _ _ Hst Hfit') as (tail & Hsg & Et & Hn').
  assert (Forall (fun x => (x <= inf_weight)%N) w) as Hwi.
  { destruct Hst as (_ & L1 & L2 & H). apply Forall_lookup_2. intros e x He. destruct (lookup_lt_is_Some_2 arcs' e) as [[[t h] x'] Hx]; [apply lookup_lt_Some in He; lia|].
    destruct (H _ _ _ _ Hx) as (_ & _ & Hx'). rewrite He in Hx'. injection Hx' as <-. rewrite Forall_forall in Hw. apply (Hw (t, h, x)), Hsame. by eapply elem_of_list_lookup_2. }
  destruct (positions_bound _ _ _ _ _ Hpt Hpos) as [B1 B2]. pose proof Hpos as (_ & L1 & L2 & _).
  destruct (C69_distances asserts log filter _ float_plus float_minus float_less nth_element garbage float_bytes bytes_float (fun _ => True) fo tail head w (micro_float <$> lat) (micro_float <$> lon)) as (f6 & order & c & m & E3 & E4 & E5 & E6 & Hq).
  { done. } { done. } { by apply micro_comparable. } { split; [lia|]. intros x _. apply float_bytes_value. } { by apply Forall_true. } { by apply Forall_true. } { done. } { done. } { rewrite fmap_length. lia. } { rewrite fmap_length. lia. } { done. }
  pose proof Hsg as [Hcsr Htl HL Fn Fm Fw]. destruct (csr_fits fo head Hcsr Fn Fm) as [F1 F2].
  exists (id_file fo), (id_file head), (word_file w), (concat (store_position <$> lat)), (concat (store_position <$> lon)), f6, fo, tail, head, w, order, c, m.
  split; [done|]. split. { apply C71_convert. by exists n, ps, lat, lon. }
  split. { unfold coordinate_file in E3. rewrite <- !list_fmap_compose in E3. exact E3. }
  split; [by apply load_id_file|]. split; [done|]. split; [by apply load_id_file|]. split; [by apply load_word_file|]. split; [done|]. split; [done|]. split; [done|].
  intros s t Hs Ht. rewrite Hn' in Hq. destruct (Hq s t Hs Ht) as (q & x & Q1 & Q2 & Q3 & Q4). exists q, x. split; [done|]. split; [done|]. split.
  { eapply text_distance_same; [exact Hsame|]. by eapply distance_text. }
  intros Hx. destruct (Q4 Hx) as (p & us & _ & Hp & Ex & Hus & Hnp). destruct (walk_text _ _ _ _ _ _ Hst Htl _ _ _ Hp) as (r & Hr & HLr & Hm). exists r. split; [|split].
  - eapply text_route_sub; [|exact Hr]. intros a. apply Hsame.
  - congruence.
  - rewrite Hnp. unfold route_nodes. congruence.
Qed.
Print Assumptions C73_routes.

Definition road_text : list N := text "c a small road network
p sp 3 4
a 1 2 5
a 2 3 7
a 1 3 20
a 3 1 1
".
Definition road_arcs : list (nat * nat * N) := [(0, 1, 5%N); (1, 2, 7%N); (0, 2, 20%N); (2, 0, 1%N)].
Example C73_ex : dimacs_file 3 road_arcs road_text /\ arcs_fit 3 road_arcs /\ Forall (fun a => (snd a <= inf_weight)%N) road_arcs /\
  positions_text 3 place_list place_file /\ positions 3 place_list place_lat place_lon /\ nth_element_ok sort_nth /\ (forall part b, garbage_ok part (example_garbage part b)) /\
  convert_road_dimacs_graph road_text = Some (Ret (id_file [0; 2; 3; 4], id_file [1; 2; 2; 0], word_file [5; 20; 7; 1]%N)) /\
  compute_nested_dissection_order true float_plus float_minus float_less sort_nth example_garbage bytes_float (id_file [0; 2; 3; 4]) (id_file [1; 2; 2; 0])
    (concat (store_position <$> place_lat)) (concat (store_position <$> place_lon)) = Some (Ret (id_file [1; 2; 0])) /\
  (exists c m q, build_cch true false true [1; 2; 0] [0; 0; 1; 2] [1; 2; 2; 0] = Some c /\ customize c [5; 20; 7; 1]%N (new_metric c) = Some m /\
    exec_all c (one_query m 0 2) (new_query c) = Some q /\ q_get_distance q = Some 12%N /\ q_node_path c m q = Some [0; 1; 2]).
Proof.
  assert (gap [32%N]) as G by (split; [done|]; repeat constructor; by left). assert (blanks []) as B by constructor.
  split; [|split; [|split; [|split; [apply C71_ex|split; [apply C71_ex|split; [apply sort_nth_ok|split; [apply example_garbage_ok|]]]]]]].
  - exists [text "c a small road network"], (text "p sp 3 4"), [text "a 1 2 5"; text "a 2 3 7"; text "a 1 3 20"; text "a 3 1 1"].
    split; [|split; [|split]].
    + change ([text "c a small road network"] ++ _) with (getlines road_text). apply getlines_lines.
    + constructor; [right; by eexists|constructor].
    + exists [32]%N, [32%N], [32%N], [], [51%N], [52%N]. split; [done|]. do 3 (split; [done|]). split; [done|]. split; apply numeral_of; first [done|by repeat constructor].
    + apply al_arc. { exists [32%N], [32%N], [32%N], [], [49%N], [50%N], [53%N]. split; [done|]. do 3 (split; [done|]). split; [done|]. split; [|split]; apply numeral_of; first [done|by repeat constructor]. }
      apply al_arc. { exists [32%N], [32%N], [32%N], [], [50%N], [51%N], [55%N]. split; [done|]. do 3 (split; [done|]). split; [done|]. split; [|split]; apply numeral_of; first [done|by repeat constructor]. }
      apply al_arc. { exists [32%N], [32%N], [32%N], [], [49%N], [51%N], [50; 48]%N. split; [done|]. do 3 (split; [done|]). split; [done|]. split; [|split]; apply numeral_of; first [done|by repeat constructor]. }
      apply al_arc. { exists [32%N], [32%N], [32%N], [], [51%N], [49%N], [49%N]. split; [done|]. do 3 (split; [done|]). split; [done|]. split; [|split]; apply numeral_of; first [done|by repeat constructor]. }
      constructor.
  - split; [vm_compute; reflexivity|]. split; [vm_compute; reflexivity|]. repeat constructor; cbn; lia.
  - repeat constructor; cbn; unfold inf_weight; lia.
  - split; [vm_compute; reflexivity|]. split; [vm_compute; reflexivity|]. eexists _, _, _. split; [vm_compute; reflexivity|]. split; [vm_compute; reflexivity|].
    split; [vm_compute; reflexivity|]. split; vm_compute; reflexivity.
Qed.
