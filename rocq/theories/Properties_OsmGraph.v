(** C48 and C49: which nodes and ways of an OSM file matter, and the graph made of them. *)
From Verif Require Import Base UtilSpec GraphSpec BitVectorModel BitVectorSpec IdMapperModel OsmGraphModel OsmGraphSpec OsmScanProofs OsmIdProofs OsmLoadProofs.

(** ** C48: load_osm_id_mapping_from_pbf *)

(** For every file and every choice of the callbacks the scan is defined and finds the modelling
    nodes, the routing nodes and the routing ways of the specification. *)
Theorem C48_scan_partial : forall {D T} (pred : option (nat -> T -> bool)) (used : nat -> T -> bool) all (file : list (element D T)),
  exists m, load_osm_id_mapping pred used all file = Some m /\
    set_rep (is_modelling_node m) (modelling pred used file) /\
    set_rep (is_routing_node m) (routing pred used all file) /\
    set_rep (is_routing_way m) (is_way_of used file).
Proof. intros D T pred used all file. apply scan_file. Qed.
Print Assumptions C48_scan_partial.

(** A routing node is a modelling node, the ends of a used way are routing nodes, and so is every
    node that two different used ways have in common. *)
Theorem C48_routing_nodes : forall {D T} (pred : option (nat -> T -> bool)) (used : nat -> T -> bool) all (file : list (element D T)),
  (forall x, routing pred used all file x -> modelling pred used file x) /\
  (forall id nodes x, (id, nodes) ∈ used_ways used file -> head nodes = Some x \/ last nodes = Some x -> routing pred used all file x) /\
  (forall i j a b x, i <> j -> used_ways used file !! i = Some a -> used_ways used file !! j = Some b -> x ∈ a.2 -> x ∈ b.2 -> routing pred used all file x).
Proof.
  intros D T pred used all file. split; [by apply routing_modelling|].
  assert (forall id nodes x, (id, nodes) ∈ used_ways used file -> x ∈ nodes -> modelling pred used file x) as Hmod.
  { intros id nodes x Hi Hx. right. unfold way_nodes. apply elem_of_list_In, in_flat_map. exists (id, nodes). split; by apply elem_of_list_In. }
  split.
  - intros id nodes x Hi Hx. unfold routing. destruct all; [|right; left; by exists id, nodes].
    eapply Hmod; [exact Hi|]. destruct Hx; [by apply head_Some_elem_of|by apply last_Some_elem_of].
  - intros i j [ia a] [ib b] x Hij Hi Hj Ha Hb. unfold routing. destruct all; [eapply Hmod; [eapply elem_of_list_lookup_2; exact Hi|done]|]. right. right. unfold way_nodes.
    assert (forall (l : list (nat * list nat)) i j a b, i < j -> l !! i = Some a -> l !! j = Some b -> x ∈ a.2 -> x ∈ b.2 -> 2 <= count_occ Nat.eq_dec (flat_map snd l) x) as Hc.
    { clear. intros l i j a b Hij Hi Hj Ha Hb. rewrite <- (take_drop_middle l i a Hi), flat_map_app. cbn [flat_map]. rewrite !count_occ_app.
      assert (b ∈ drop (S i) l) as Hbd. { apply (elem_of_list_lookup_2 _ (j - S i)). rewrite lookup_drop. replace (S i + (j - S i)) with j by lia. done. }
      assert (x ∈ flat_map snd (drop (S i) l)) as Hx. { apply elem_of_list_In, in_flat_map. exists b. split; by apply elem_of_list_In. }
      apply elem_of_list_In, (count_occ_In Nat.eq_dec) in Hx. apply elem_of_list_In, (count_occ_In Nat.eq_dec) in Ha. lia. }
    destruct (decide (i < j)); [by eapply (Hc _ i j)|eapply (Hc _ j i); [lia|done..]].
Qed.
Print Assumptions C48_routing_nodes.

(** The order of the elements in the file plays no role. *)
Theorem C48_order_irrelevant : forall {D T} (pred : option (nat -> T -> bool)) (used : nat -> T -> bool) all (file file' : list (element D T)), file ≡ₚ file' ->
  forall x, (modelling pred used file x <-> modelling pred used file' x) /\ (routing pred used all file x <-> routing pred used all file' x) /\
    (is_way_of used file x <-> is_way_of used file' x).
Proof. intros D T pred used all file file' H x. by apply spec_order. Qed.
Print Assumptions C48_order_irrelevant.

(** The ids are 64-bit numbers, so an id that is negative in the file is 2^63 or more. For these the
    loop in BitVector::make_large_enough_for never ends. *)
Theorem C48_negative_id_refuted : exists x n : N, (x < 2 ^ 64)%N /\ forall fuel, grow64 fuel n x = None.
Proof. exists (2 ^ 64 - 1)%N, 1%N. split; [done|]. intros fuel. apply grow64_diverges; [done|]. right. by exists 0%N. Qed.
Print Assumptions C48_negative_id_refuted.
(** For all other ids it ends with a size that is large enough. *)
Theorem C48_growth : forall x k, (x < 2 ^ 63)%N -> (k <= 63)%N -> exists fuel j, grow64 fuel (2 ^ k)%N x = Some (2 ^ j)%N /\ (x < 2 ^ j)%N /\ (j <= 63)%N.
Proof. intros x k Hx Hk. exists 63. apply (grow64_ends 63 (2 ^ k)%N x k); [done|done|done|lia]. Qed.
Print Assumptions C48_growth.

(** *** Example: a node with a mark (tag 1), two ways that cross, an unused way *)
Local Notation N_ i la lo t := (ENode (D := Z) (T := nat) i la%Z lo%Z t).
Local Notation W_ i l t := (EWay (D := Z) (T := nat) i l t).
Example small_file : list (element Z nat) :=
  [W_ 7 [1; 2; 3] 0; N_ 1 0 0 0; N_ 2 0 3 0; N_ 3 0 9 0; N_ 4 4 3 0; N_ 5 1 3 0; N_ 9 5 5 1; W_ 3 [4; 5; 2] 1; W_ 5 [1; 4] 8; W_ 6 [4] 0; ERelation 1 [mkMember TWay 7 []] 0].
Definition is_used : nat -> nat -> bool := fun _ t => negb (t =? 8).
Example small_mapping : exists m, load_osm_id_mapping (Some (fun _ t => t =? 1)) is_used false small_file = Some m /\
  map (fun x => bv_is_set (is_modelling_node m) x) (seq 0 16) = map Some [false; true; true; true; true; true; false; false; false; true; false; false; false; false; false; false] /\
  map (fun x => bv_is_set (is_routing_node m) x) (seq 0 10) = map Some [false; true; true; true; true; false; false; false; false; true] /\
  map (fun x => bv_is_set (is_routing_way m) x) (seq 0 8) = map Some [false; false; false; true; false; false; false; true].
Proof. eexists. vm_compute. split; [reflexivity|]. split_and!; reflexivity. Qed.
Example small_way_crossing : used_ways (D := Z) is_used small_file = [(7, [1; 2; 3]); (3, [4; 5; 2])].
Proof. reflexivity. Qed.

(** ** C49: load_osm_routing_graph_from_pbf without turn restrictions *)

(** With the sets found by the scan of a file in which every way id occurs once, the graph of the
    file is built: its nodes are the routing nodes in the order of their ids, with their positions;
    its arcs are exactly the arcs of the segments of the ways, sorted by tail and head; the arrays
    for length, way, direction and geometry belong to them. In the build with assertions
    the first assertion has to hold, see below. *)
Theorem C49_graph_partial : forall {D F T} (narrow : D -> F) fzero dzero dplus geo_dist to_unsigned asserts
    (pred : option (nat -> T -> bool)) (used : nat -> T -> bool) all (file : list (element D T)) way_callback decoder geometry m,
  load_osm_id_mapping pred used all file = Some m -> NoDup (way_ids file) -> (asserts = true -> mapping_assertion m = Some tt) ->
  let cb := default (fun _ _ _ => OpenBoth) way_callback in
  let geo := extracted_geometry geometry (bool_decide (is_Some decoder)) in
  let pos := position narrow fzero file in
  exists g mm rm wm mods nodes ways, load_osm_arcs narrow fzero dzero dplus geo_dist to_unsigned asserts file m way_callback decoder geometry = Some (g, mm, rm, wm, file_restrictions decoder file) /\
    enum (modelling pred used file) mods /\ enum (routing pred used all file) nodes /\ enum (is_way_of used file) ways /\
    numbers mm mods /\ numbers rm nodes /\ numbers wm ways /\
    csr (length nodes) (g_first_out g) (g_head g) /\ heads_sorted (g_first_out g) (g_head g) /\
    (forall i t, g_tail g !! i = Some t -> out_arc (g_first_out g) t i) /\
    g_lat g = map (fun x => (pos x).1) nodes /\ g_lon g = map (fun x => (pos x).2) nodes /\
    (geo = GeoNone -> g_first_m g = [] /\ g_mlat g = [] /\ g_mlon g = []) /\
    exists arcs, arcs ≡ₚ file_arcs dzero dplus geo_dist to_unsigned pos (fun x => bool_decide (x ∈ nodes)) (fun x => bool_decide (x ∈ ways)) (rank ways) cb file /\
      length (g_tail g) = length arcs /\ length (g_head g) = length arcs /\ length (g_way g) = length arcs /\ length (g_dist g) = length arcs /\ length (g_anti g) = length arcs /\
      forall i a, arcs !! i = Some a -> arc_entry geo nodes ways g i a.
Proof.
  intros D F T narrow fzero dzero dplus geo_dist to_unsigned asserts pred used all file way_callback decoder geometry m Hm Hnd Hass cb geo pos.
  destruct (scan_file pred used all file) as (m' & Hm' & Hmd & Hrt & Hwy). assert (m' = m) as -> by congruence.
  destruct (mapper_numbers _ _ Hmd) as (_ & mods & _ & Em & _). destruct (mapper_numbers _ _ Hrt) as (_ & nodes & _ & Er & _). destruct (mapper_numbers _ _ Hwy) as (_ & ways & _ & Ew & _).
  assert (forall v P ids, set_rep v P -> enum P ids -> set_rep v (fun x => x ∈ ids)) as Hset.
  { intros v P ids Hv [_ He]. eapply set_rep_iff; [exact Hv|]. intros x. by rewrite He. }
  destruct (load_arcs narrow fzero dzero dplus geo_dist to_unsigned asserts file m way_callback decoder geometry nodes ways mods) as (g & mm & rm & wm & H).
  { by apply (Hset _ _ _ Hmd). } { by apply (Hset _ _ _ Hrt). } { by apply (Hset _ _ _ Hwy). } { apply Em. } { apply Er. } { apply Ew. }
  { intros x Hx. apply Em. apply (routing_modelling pred used all). by apply Er. } { done. }
  { apply (scan_ways_ok pred used all); [done| | |]; intros x; rewrite bool_decide_eq_true; [apply Em|apply Er|apply Ew]. }
  exists g, mm, rm, wm, mods, nodes, ways. destruct H as (H & Hmm & Hrm & Hwm & H'). do 7 (split; [done|]). exact H'.
Qed.
Print Assumptions C49_graph_partial.

(** The same for any sets, for instance those of an earlier version of the file, as long as they
    fit to the ways. *)
Theorem C49_graph_of_sets : forall {D F T} (narrow : D -> F) fzero dzero dplus geo_dist to_unsigned asserts
    (file : list (element D T)) m (way_callback : option (nat -> nat -> T -> way_direction)) decoder geometry nodes ways mods,
  set_rep (is_modelling_node m) (.∈ mods) -> set_rep (is_routing_node m) (.∈ nodes) -> set_rep (is_routing_way m) (.∈ ways) ->
  StronglySorted lt mods -> StronglySorted lt nodes -> StronglySorted lt ways -> (forall x, x ∈ nodes -> x ∈ mods) ->
  (asserts = true -> mapping_assertion m = Some tt) ->
  let cb := default (fun _ _ _ => OpenBoth) way_callback in
  let geo := extracted_geometry geometry (bool_decide (is_Some decoder)) in
  let pos := position narrow fzero file in
  ways_ok (fun x => bool_decide (x ∈ mods)) (fun x => bool_decide (x ∈ nodes)) (fun x => bool_decide (x ∈ ways)) (rank ways) cb file ->
  exists g mm rm wm, load_osm_arcs narrow fzero dzero dplus geo_dist to_unsigned asserts file m way_callback decoder geometry = Some (g, mm, rm, wm, file_restrictions decoder file) /\
    numbers mm mods /\ numbers rm nodes /\ numbers wm ways /\
    csr (length nodes) (g_first_out g) (g_head g) /\ heads_sorted (g_first_out g) (g_head g) /\
    (forall i t, g_tail g !! i = Some t -> out_arc (g_first_out g) t i) /\
    g_lat g = map (fun x => (pos x).1) nodes /\ g_lon g = map (fun x => (pos x).2) nodes /\
    (geo = GeoNone -> g_first_m g = [] /\ g_mlat g = [] /\ g_mlon g = []) /\
    exists arcs, arcs ≡ₚ file_arcs dzero dplus geo_dist to_unsigned pos (fun x => bool_decide (x ∈ nodes)) (fun x => bool_decide (x ∈ ways)) (rank ways) cb file /\
      length (g_tail g) = length arcs /\ length (g_head g) = length arcs /\ length (g_way g) = length arcs /\ length (g_dist g) = length arcs /\ length (g_anti g) = length arcs /\
      forall i a, arcs !! i = Some a -> arc_entry geo nodes ways g i a.
Proof. intros. by apply load_arcs. Qed.
Print Assumptions C49_graph_of_sets.

(** The segments of a way that starts with a routing node: from a routing node to the next one. *)
Theorem C49_segments : forall R x rest, R x = true ->
  (forall s inner y, (s, inner, y) ∈ way_segments R (x :: rest) <->
    exists pre post, x :: rest = pre ++ s :: inner ++ y :: post /\ R s = true /\ R y = true /\ Forall (fun z => R z = false) inner) /\
  S (length (way_segments R (x :: rest))) = length (filter (fun z => R z = true) (x :: rest)).
Proof.
  intros R x rest Hx. cbn [way_segments]. split.
  - intros s inner y. rewrite segments_spec by constructor. split.
    + intros [(mid & post & -> & -> & -> & Hy & Hmid)|(pre & post & -> & Hs & Hy & Hi)]; [exists [], post|exists (x :: pre), post]; by split_and!.
    + intros (pre & post & H & Hs & Hy & Hi). destruct pre as [|z pre]; cbn in H; injection H as -> ->; [left; exists inner, post|right; exists pre, post]; by split_and!.
  - rewrite segments_length, filter_cons_True by done. done.
Qed.
Print Assumptions C49_segments.

(** The assertion at the beginning takes the union of the two bit vectors, which asserts that they
    have the same size. The sizes are powers of two above the largest id that was added, and differ for
    ordinary files. *)
Theorem C49_first_assertion_refuted : exists (file : list (element Z nat)) m,
  load_osm_id_mapping None (fun _ _ => true) false file = Some m /\ NoDup (way_ids file) /\
  load_osm_arcs (F := Z) (fun x => x) 0%Z 0%Z Z.add (fun a b c d => (Z.abs (a - c) + Z.abs (b - d))%Z) Z.to_N true file m None None GeoNone = None.
Proof.
  exists [W_ 1 [1; 9; 2] 0]. eexists. split; [vm_compute; reflexivity|]. split; [repeat constructor; by intros ?%elem_of_nil|]. vm_compute. reflexivity.
Qed.
Print Assumptions C49_first_assertion_refuted.

(** If a way id occurs twice, once with a way that the scan did not use because it has no nodes, then
    the graph construction reads the first node of an empty list. *)
Theorem C49_duplicate_way_refuted : exists (file : list (element Z nat)) m,
  load_osm_id_mapping None (fun _ _ => true) false file = Some m /\
  load_osm_arcs (F := Z) (fun x => x) 0%Z 0%Z Z.add (fun a b c d => (Z.abs (a - c) + Z.abs (b - d))%Z) Z.to_N false file m None None GeoNone = None.
Proof. exists [W_ 1 [1; 2] 0; W_ 1 [] 0]. eexists. split; [vm_compute; reflexivity|]. vm_compute. reflexivity. Qed.
Print Assumptions C49_duplicate_way_refuted.

(** *** Example: the small file. Way 7 is open in both directions, way 3 is one-way against its
    direction. Nodes 1, 2, 3, 4, 9 get the local ids 0 to 4. *)
Example small_graph : exists m mm rm wm, load_osm_id_mapping (Some (fun _ t => t =? 1)) is_used false small_file = Some m /\ NoDup (way_ids small_file) /\
  load_osm_arcs (F := Z) (fun x => x) 0%Z 0%Z Z.add (fun a b c d => (Z.abs (a - c) + Z.abs (b - d))%Z) Z.to_N false small_file m
    (Some (fun _ _ t => if t =? 1 then OnlyBackwards else OpenBoth)) None GeoUncompressed =
  Some (mkOsm [0; 1; 4; 5; 5; 5] [0; 1; 1; 1; 2] [1; 0; 2; 3; 1] [1; 1; 1; 0; 1] [3; 3; 6; 4; 6]%N [0; 0; 0; 4; 5]%Z [0; 3; 9; 3; 5]%Z
          [false; true; false; true; true] [0; 0; 0; 0; 1; 1] [1]%Z [3]%Z, mm, rm, wm, []).
Proof.
  do 4 eexists. split; [vm_compute; reflexivity|]. split; [|vm_compute; reflexivity].
  apply (bool_decide_unpack _). vm_compute. done.
Qed.
(** Sets that do not come from the scan of the same file. *)
Example small_sets : exists file m, set_rep (is_modelling_node m) (.∈ [1; 2; 3; 4]) /\ set_rep (is_routing_node m) (.∈ [1; 3; 4]) /\ set_rep (is_routing_way m) (.∈ [7; 9]) /\
  mapping_assertion m = Some tt /\
  ways_ok (D := Z) (fun x => bool_decide (x ∈ [1; 2; 3; 4])) (fun x => bool_decide (x ∈ [1; 3; 4])) (fun x => bool_decide (x ∈ [7; 9])) (rank [7; 9]) (fun _ _ (_ : nat) => OpenBoth) file /\
  W_ 7 [1; 2; 3] 0 ∈ file.
Proof.
  exists [W_ 7 [1; 2; 3] 0; W_ 9 [4; 3] 1; W_ 11 [20] 0].
  assert (exists m, load_osm_id_mapping (D := Z) (T := nat) None (fun _ _ => true) false [W_ 7 [1; 2; 3] 0; W_ 9 [4; 3] 1] = Some m /\ mapping_assertion m = Some tt) as (m & Hm & Hass) by (eexists; vm_compute; done).
  exists m. destruct (scan_file (D := Z) (T := nat) None (fun _ _ => true) false [W_ 7 [1; 2; 3] 0; W_ 9 [4; 3] 1]) as (m' & Hm' & H1 & H2 & H3). assert (m' = m) as -> by congruence.
  assert (used_ways (D := Z) (fun _ (_ : nat) => true) [W_ 7 [1; 2; 3] 0; W_ 9 [4; 3] 1] = [(7, [1; 2; 3]); (9, [4; 3])]) as Hu by reflexivity.
  split_and!.
  - eapply set_rep_iff; [exact H1|]. intros x. unfold modelling, declared. split.
    + intros [(? & ? & ? & ? & ? & _)|H]; [done|]. change (way_nodes (fun _ (_ : nat) => true) [W_ 7 [1; 2; 3] 0; W_ 9 [4; 3] 1]) with [1; 2; 3; 4; 3] in H. apply elem_of_list_In in H. apply elem_of_list_In. cbn in *. tauto.
    + intros H. right. change (way_nodes (fun _ (_ : nat) => true) [W_ 7 [1; 2; 3] 0; W_ 9 [4; 3] 1]) with [1; 2; 3; 4; 3]. apply elem_of_list_In in H. apply elem_of_list_In. cbn in *. tauto.
  - eapply set_rep_iff; [exact H2|]. intros x. unfold routing, declared, way_end. rewrite Hu. split.
    + intros [(? & ? & ? & ? & ? & _)|[(i & ns & Hi & Hx)|H]]; [done| |].
      * apply elem_of_list_In in Hi. cbn in Hi. destruct Hi as [Hi|[Hi|[]]]; injection Hi as <- <-; cbn in Hx; destruct Hx as [Hx|Hx]; injection Hx as <-; apply elem_of_list_In; cbn; tauto.
      * change (way_nodes (fun _ (_ : nat) => true) [W_ 7 [1; 2; 3] 0; W_ 9 [4; 3] 1]) with [1; 2; 3; 4; 3] in H.
        assert (In x [1; 2; 3; 4; 3]) as Hx by (apply (count_occ_In Nat.eq_dec); revert H; generalize (count_occ Nat.eq_dec [1; 2; 3; 4; 3] x); lia).
        apply elem_of_list_In. cbn in Hx. destruct Hx as [<- |[<- |[<- |[<- |[<- |[]]]]]]; cbn in H |- *; first [lia|tauto].
    + intros Hx. right. left. apply elem_of_list_In in Hx. destruct Hx as [<- |[<- |[<- |[]]]]; [exists 7, [1; 2; 3]|exists 7, [1; 2; 3]|exists 9, [4; 3]]; rewrite elem_of_list_In; cbn; tauto.
  - eapply set_rep_iff; [exact H3|]. intros x. unfold is_way_of. rewrite Hu. split.
    + intros (ns & H). apply elem_of_list_In in H. destruct H as [H|[H|[]]]; injection H as <- <-; apply elem_of_list_In; cbn; tauto.
    + intros Hx. apply elem_of_list_In in Hx. destruct Hx as [<- |[<- |[]]]; [exists [1; 2; 3]|exists [4; 3]]; apply elem_of_list_In; cbn; tauto.
  - done.
  - intros id nodes tags He Hid _. rewrite !elem_of_cons in He. destruct He as [He|[He|[He|He]]]; [injection He as -> -> ->..|by apply elem_of_nil in He]; [| |by cbn in Hid].
    + split; [exists 1, 3; by split_and!|repeat constructor].
    + split; [exists 4, 3; by split_and!|repeat constructor].
  - by left.
Qed.
