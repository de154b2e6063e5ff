(** C50: the turn restrictions of an OSM file as forbidden turns. *)
From Verif Require Import Base UtilSpec GraphSpec IdMapperModel OsmGraphModel OsmGraphSpec OsmIdProofs OsmLoadProofs OsmTurnModel OsmTurnSpec OsmTurnProofs Properties_OsmGraph.

(** For every graph with tails, ways, positions and geometry the computation of the forbidden turns
    is defined. The turns are sorted and without duplicates, and they are exactly those that one of
    the restrictions with known ways and nodes forbids. *)
Theorem C50_forbidden_turns_partial : forall {F} (turn_matches : turn_direction -> F * F -> F * F -> F * F -> bool) std_sort std_sort' asserts (g : osm_graph (F := F)) rm wm nodes ways rs,
  numbers rm nodes -> numbers wm ways -> StronglySorted lt nodes -> StronglySorted lt ways ->
  csr (length nodes) (g_first_out g) (g_head g) -> (forall i t, g_tail g !! i = Some t -> out_arc (g_first_out g) t i) ->
  length (g_tail g) = length (g_head g) -> length (g_way g) = length (g_head g) -> (forall w, w ∈ g_way g -> w < length ways) ->
  length (g_lat g) = length nodes -> length (g_lon g) = length nodes ->
  (rs <> [] -> forall a, a < length (g_head g) -> exists l, inner_points g a l) ->
  sort_perm (fun x => x) (g_way g) (std_sort (seq 0 (length (g_way g)))) ->
  sort_perm (fun x => x) (g_head g) (std_sort' (seq 0 (length (g_head g)))) ->
  exists l c, forbidden_turns turn_matches std_sort std_sort' asserts g rm wm rs = Some (map fst l, map snd l) /\ StronglySorted lex_lt l /\ selection g c /\
    forall a b, (a, b) ∈ l <-> exists r r', r ∈ rs /\ localised nodes ways r r' /\ forbids turn_matches g c r' a b.
Proof. intros. by apply forbidden_turns_spec. Qed.
Print Assumptions C50_forbidden_turns_partial.

(** Each of them is a turn: the second arc starts where the first one ends, which is an arc of the from-way;
    if the restriction is not mandatory, then the second arc belongs to the to-way. *)
Theorem C50_turns_meet : forall {F} (turn_matches : turn_direction -> F * F -> F * F -> F * F -> bool) (g : osm_graph (F := F)) c r a b,
  selection g c -> forbids turn_matches g c r a b ->
  exists v, g_head g !! a = Some v /\ g_tail g !! b = Some v /\ g_way g !! a = Some (from_way r) /\ (mandatory r = false -> g_way g !! b = Some (to_way r)) /\ (forall x, via r = Some x -> v = x).
Proof.
  intros F turn_matches g c r a b Hc [(v & t & Hp & ([[Ha1 Ha2] [Ht1 Ht2]] & _) & H)|(Hs & v & o & Ho & Hv & Hca & Hb & _)].
  - exists v. cbn in *. split; [done|]. assert (forall x, via r = Some x -> v = x) as Hx.
    { intros x Ex. destruct Hp as [Hp|[Hp _]]; congruence. }
    destruct (mandatory r); [destruct H as [Hb _]; by split_and!|]. subst b. by split_and!.
  - pose proof (Hc (from_way r) v) as Hcv. rewrite Hca in Hcv. destruct Hcv as [H1 H2]. exists v. split; [done|]. split; [done|]. split; [done|]. destruct Hs as (Hs1 & _ & ->). split; [done|]. intros x Hx. congruence.
Qed.
Print Assumptions C50_turns_meet.

(** A prohibitive restriction forbids at most one turn. A mandatory one with a via node leaves one turn from its arc
    open. *)
Theorem C50_one_turn : forall {F} (turn_matches : turn_direction -> F * F -> F * F -> F * F -> bool) (g : osm_graph (F := F)) c r, ~ straight r ->
  (forall a b, forbids turn_matches g c r a b -> mandatory r = true -> exists t v, g_head g !! a = Some v /\ g_tail g !! t = Some v /\ g_way g !! t = Some (to_way r) /\ ~ forbids turn_matches g c r a t) /\
  (mandatory r = false -> forall a b a' b', forbids turn_matches g c r a b -> forbids turn_matches g c r a' b' -> a = a' /\ b = b').
Proof.
  intros F turn_matches g c r Hns.
  assert (forall v v', place g r v -> place g r v' -> v = v') as Hpl.
  { intros v v' [Hv|(Hv & _ & b & Hb & Hbv & Hu)] [Hv'|(Hv' & _ & b' & Hb' & Hbv' & Hu')]; [congruence..|]. assert (b = b') as -> by (by apply Hu'). congruence. }
  assert (forall v t t', meant turn_matches g r v t -> meant turn_matches g r v t' -> t = t') as Hmt.
  { intros v t t' [Ht [H|[H1 H2]]] [Ht' [H'|[H1' H2']]]; [by apply H'|symmetry; by apply H|by apply H'|by apply H2']. }
  split.
  - intros a b [(v & t & Hp & Hm & H)|[? _]] Hman; [|done]. rewrite Hman in H. exists t, v. destruct Hm as [Hc Hm]. destruct Hc as [[Ha1 Ha2] [Ht1 Ht2]]. cbn in *. split_and!; [done..|].
    intros [(v' & t' & Hp' & Hm' & H')|[? _]]; [|done]. rewrite Hman in H'. assert (v' = v) as -> by (by apply Hpl).
    assert ((a, t') = (a, t)) as Et by (eapply Hmt; [done|]; by split). injection Et as ->. by destruct H'.
  - intros Hman a b a' b' [(v & t & Hp & Hm & H)|[? _]] [(v' & t' & Hp' & Hm' & H')|[? _]]; try done. rewrite Hman in H, H'. subst b b'. assert (v' = v) as -> by (by apply Hpl).
    assert ((a, t) = (a', t')) as Et by (by eapply Hmt). by injection Et as -> ->.
Qed.
Print Assumptions C50_one_turn.

(** The whole of load_osm_routing_graph_from_pbf, with the sets found by the scan of the file and
    std::sort sorting the arcs by way and by head: the graph is that of C49, and the forbidden turns
    are those of the restrictions that the decoder reports. *)
Theorem C50_load_partial : forall {D F T} (narrow : D -> F) fzero dzero dplus geo_dist to_unsigned turn_matches std_sort std_sort' asserts
    (pred : option (nat -> T -> bool)) (used : nat -> T -> bool) all (file : list (element D T)) way_callback decoder geometry m,
  load_osm_id_mapping pred used all file = Some m -> NoDup (way_ids file) -> (asserts = true -> mapping_assertion m = Some tt) ->
  exists g mm rm wm nodes ways, load_osm_arcs narrow fzero dzero dplus geo_dist to_unsigned asserts file m way_callback decoder geometry = Some (g, mm, rm, wm, file_restrictions decoder file) /\
    enum (routing pred used all file) nodes /\ enum (is_way_of used file) ways /\
    (sort_perm (fun x => x) (g_way g) (std_sort (seq 0 (length (g_way g)))) ->
     sort_perm (fun x => x) (g_head g) (std_sort' (seq 0 (length (g_head g)))) ->
     exists l c, load_osm_routing_graph narrow fzero dzero dplus geo_dist to_unsigned turn_matches std_sort std_sort' asserts file m way_callback decoder geometry = Some (g, (map fst l, map snd l)) /\
       StronglySorted lex_lt l /\ selection g c /\
       forall a b, (a, b) ∈ l <-> exists r r', r ∈ file_restrictions decoder file /\ localised nodes ways r r' /\ forbids turn_matches g c r' a b).
Proof.
  intros D F T narrow fzero dzero dplus geo_dist to_unsigned turn_matches std_sort std_sort' asserts pred used all file way_callback decoder geometry m Hm Hnd Hass.
  destruct (C49_graph_partial narrow fzero dzero dplus geo_dist to_unsigned asserts pred used all file way_callback decoder geometry m Hm Hnd Hass)
    as (g & mm & rm & wm & mods & nodes & ways & E & _ & En & Ew & _ & Hrm & Hwm & Hcsr & _ & Htail & Hla & Hlo & _ & arcs & _ & Hl1 & Hl2 & Hl3 & _ & _ & Hent).
  exists g, mm, rm, wm, nodes, ways. split; [done|]. split; [done|]. split; [done|]. intros Hs1 Hs2. unfold load_osm_routing_graph. rewrite E. cbn [mbind option_bind].
  destruct (forbidden_turns_spec turn_matches std_sort std_sort' asserts g rm wm nodes ways (file_restrictions decoder file)) as (l & c & -> & H); [done|done|apply En|apply Ew|done|done|lia|lia| | | | |done|done|].
  - intros w [i Hi]%elem_of_list_lookup_1. destruct (lookup_lt_is_Some_2 arcs i) as [a Ha]; [apply lookup_lt_Some in Hi; lia|]. destruct (ae_way _ _ _ _ _ _ (Hent _ _ Ha)) as (w' & Hw' & Hi'). assert (w' = w) as -> by congruence. by eapply lookup_lt_Some.
  - rewrite Hla. apply map_length.
  - rewrite Hlo. apply map_length.
  - intros Hrs i Hi. destruct (lookup_lt_is_Some_2 arcs i) as [a Ha]; [lia|].
    destruct (ae_geo _ _ _ _ _ _ (Hent _ _ Ha)) as (lo & hi & H).
    { destruct decoder as [dec|]; [unfold extracted_geometry; rewrite bool_decide_eq_true_2 by done; by destruct geometry|]. exfalso. apply Hrs. clear. unfold file_restrictions. induction file as [|[] file IH]; cbn; done. }
    eexists. exists lo, hi. exact H.
  - exists l, c. by split.
Qed.
Print Assumptions C50_load_partial.

(** *** Examples: node 1 is a crossing; the ways 10, 11 and 12 lead from the west to it, from the south
    over it to the north, and from it to the east. *)
Local Notation N_ i la lo := (ENode (D := Z) (T := nat) i la%Z lo%Z 0).
Local Notation W_ i l := (EWay (D := Z) (T := nat) i l 0).
Definition crossing_file : list (element Z nat) :=
  [N_ 1 0 0; N_ 2 0 (-5); N_ 3 0 5; N_ 4 5 0; N_ 5 (-5) 0; N_ 6 2 1; W_ 10 [2; 1]; W_ 11 [5; 1; 6; 4]; W_ 12 [1; 3]; ERelation 20 [] 1; ERelation 21 [] 2; ERelation 22 [] 3; ERelation 23 [] 4].
(** The angles as in the code, but with exact arithmetic. *)
Definition grid_turn (d : turn_direction) (p c q : Z * Z) : bool :=
  let x1 := (c.2 - p.2)%Z in let y1 := (c.1 - p.1)%Z in let x2 := (q.2 - c.2)%Z in let y2 := (q.1 - c.1)%Z in
  let dot := (x1 * x2 + y1 * y2)%Z in let cross := (x1 * y2 - y1 * x2)%Z in
  match d with
  | LeftTurn => (Z.abs dot <? cross)%Z
  | RightTurn => (Z.abs dot <? - cross)%Z
  | StraightOn => (0 <? dot)%Z && (cross * cross <? 3 * dot * dot)%Z
  | UTurn => (dot <? 0)%Z && (cross * cross <? 3 * dot * dot)%Z
  end.
Definition grid_decoder (rs : list restriction) : option (nat -> list member -> nat -> list restriction) :=
  Some (fun id _ t => option_list (rs !! (t - 1))).
Definition grid_load (order order' : list nat) (file : list (element Z nat)) (rs : list restriction) (oneway : nat -> bool) : option (osm_graph (F := Z) * (list nat * list nat)) :=
  m ← load_osm_id_mapping None (fun _ _ => true) false file;
  load_osm_routing_graph (fun x => x) 0%Z 0%Z Z.add (fun a b c d => (Z.abs (a - c) + Z.abs (b - d))%Z) Z.to_N grid_turn (fun _ => order) (fun _ => order') true file m
    (Some (fun id _ _ => if oneway id then OnlyForwards else OpenBoth)) (grid_decoder rs) GeoNone.
Definition sorted_order (keys order : list nat) : bool :=
  bool_decide (Permutation order (seq 0 (length keys))) && forallb (fun j => forallb (fun i => bool_decide (default 0 (a ← order !! i; keys !! a) <= default 0 (a ← order !! j; keys !! a))) (seq 0 j)) (seq 0 (length order)).
Lemma sorted_order_sound keys order : sorted_order keys order = true -> sort_perm (fun x => x) keys order.
Proof.
  intros [H1 H2]%andb_true_iff. apply bool_decide_eq_true in H1. split; [done|]. intros i j a b x y Hij Ha Hb Hx Hy.
  rewrite forallb_forall in H2. specialize (H2 j). rewrite forallb_forall in H2. assert (In j (seq 0 (length order))) as Hj by (apply in_seq; apply lookup_lt_Some in Hb; lia).
  specialize (H2 Hj i). assert (In i (seq 0 j)) as Hi by (apply in_seq; lia). specialize (H2 Hi). apply bool_decide_eq_true in H2. rewrite Ha, Hb in H2. cbn in H2. rewrite Hx, Hy in H2. exact H2.
Qed.

(** No left turn from way 10 into way 11; from way 10 only straight on into way 12; no right turn from way 11
    into way 12; no turn from way 12 into way 10, where the node is not given; the last restriction names
    an unknown node. *)
Example crossing_turns : exists g order order',
  sort_perm (fun x => x) (g_way g) order /\ sort_perm (fun x => x) (g_head g) order' /\
  g_tail g = [0; 0; 0; 0; 1; 2; 3; 4] /\ g_head g = [1; 2; 3; 4; 0; 0; 0; 0] /\ g_way g = [0; 2; 1; 1; 0; 2; 1; 1] /\
  grid_load order order' crossing_file
    [mkRestr 20 false LeftTurn 10 (Some 1) 11; mkRestr 21 true StraightOn 10 (Some 1) 12; mkRestr 22 false RightTurn 11 (Some 1) 12; mkRestr 23 false UTurn 12 None 10; mkRestr 24 false UTurn 12 (Some 7) 10]
    (fun _ => false) = Some (g, ([4; 4; 4; 5; 7], [0; 2; 3; 0; 1])).
Proof.
  eexists. exists [0;4;2;3;6;7;1;5], [4;5;6;7;0;1;2;3]. split_and!; cycle 5; [vm_compute; reflexivity|..]; [apply sorted_order_sound; vm_compute; reflexivity..|reflexivity|reflexivity|reflexivity].
Qed.
(** The same restrictions are within the reach of C50_load_partial. *)
Example crossing_hypotheses : exists m, load_osm_id_mapping None (fun _ _ => true) false crossing_file = Some m /\ NoDup (way_ids crossing_file) /\ mapping_assertion m = Some tt.
Proof. eexists. split; [vm_compute; reflexivity|]. split; [|vm_compute; reflexivity]. apply (bool_decide_unpack _). vm_compute. done. Qed.

(** ** What goes wrong *)

(** An order to go straight on along a way, which has no via node, does what it should if the way is
    one-way and passes each node once. *)
Theorem C50_straight_oneway : forall {F} (turn_matches : turn_direction -> F * F -> F * F -> F * F -> bool) (g : osm_graph (F := F)) c r v a o,
  selection g c -> straight r ->
  (forall x, g_head g !! x = Some v -> g_way g !! x = Some (from_way r) -> x = a) -> g_head g !! a = Some v -> g_way g !! a = Some (from_way r) ->
  (forall x, g_tail g !! x = Some v -> g_way g !! x = Some (from_way r) -> x = o) -> g_tail g !! o = Some v -> g_way g !! o = Some (from_way r) ->
  forall b, forbids turn_matches g c r a b <-> g_tail g !! b = Some v /\ b <> o.
Proof.
  intros F turn_matches g c r v a o Hc Hs Ha Ha1 Ha2 Ho Ho1 Ho2 b. split.
  - intros [(v' & t & Hp & _)|(_ & v' & o' & Ho' & Hv' & Hca & Hb & Hne)].
    + exfalso. destruct Hp as [Hp|(_ & Hn & _)]; [|done]. destruct Hs as [Hs _]. congruence.
    + pose proof (Hc (from_way r) v') as H. rewrite Hca in H. destruct H as [H _]. assert (v' = v) as -> by congruence. split; [done|]. by rewrite <- (Ho o').
  - intros [Hb Hne]. right. split; [done|]. exists v, o. split_and!; try done. pose proof (Hc (from_way r) v) as H. destruct (c (from_way r) v) as [a'|] eqn:E.
    + destruct H as [H1 H2]. f_equal. by apply Ha.
    + exfalso. by apply (H a).
Qed.
Print Assumptions C50_straight_oneway.
Example straight_oneway_example : exists g order order', sort_perm (fun x => x) (g_way g) order /\ sort_perm (fun x => x) (g_head g) order' /\
  g_tail g = [0; 0; 1; 3] /\ g_head g = [2; 3; 0; 0] /\ g_way g = [0; 1; 0; 1] /\
  grid_load order order' [N_ 1 0 0; N_ 2 0 (-5); N_ 3 0 5; N_ 4 5 0; W_ 10 [2; 1; 3]; W_ 11 [1; 4]; ERelation 20 [] 1] [mkRestr 20 true StraightOn 10 None 10] (fun w => w =? 10) = Some (g, ([2], [1])).
Proof.
  eexists. exists [0;2;1;3], [2;3;0;1]. split_and!; cycle 5; [vm_compute; reflexivity|..]; [apply sorted_order_sound; vm_compute; reflexivity..|reflexivity|reflexivity|reflexivity].
Qed.

(** If the way is open in both directions, then the code keeps one of the arcs into the node, and
    combines it with each of the arcs of the way that leave the node. So it forbids all turns from
    that arc, also straight on, and nothing from the other one. *)
Theorem C50_straight_on_refuted : exists file g order order' from to v a a',
  sort_perm (fun x => x) (g_way g) order /\ sort_perm (fun x => x) (g_head g) order' /\
  grid_load order order' file [mkRestr 20 true StraightOn 10 None 10] (fun _ => false) = Some (g, (from, to)) /\
  g_head g !! a = Some v /\ g_way g !! a = Some 0 /\ (forall b, g_tail g !! b = Some v -> (a, b) ∈ zip from to) /\
  g_head g !! a' = Some v /\ g_way g !! a' = Some 0 /\ (forall b, (a', b) ∉ zip from to).
Proof.
  exists [N_ 1 0 0; N_ 2 0 (-5); N_ 3 0 5; N_ 4 5 0; W_ 10 [2; 1; 3]; W_ 11 [1; 4]; ERelation 20 [] 1]. eexists. exists [0;1;3;4;2;5], [3;4;5;0;1;2]. eexists _, _. exists 0, 4, 3.
  split_and!; cycle 2; [vm_compute; reflexivity|reflexivity|reflexivity| |reflexivity|reflexivity| |..]; [| |apply sorted_order_sound; vm_compute; reflexivity..].
  - intros b Hb. cbn in Hb. apply elem_of_list_In. destruct b as [|[|[|[|[|[|b]]]]]]; cbn in Hb; try done; cbn; tauto.
  - intros b Hb. apply elem_of_list_In in Hb. cbn in Hb. destruct Hb as [Hb|[Hb|[Hb|[]]]]; by injection Hb.
Qed.
Print Assumptions C50_straight_on_refuted.

(** A restriction without via node between two ways that meet at one node only is dropped as ambiguous
    if two arcs of the second way leave that node. With the node it forbids the left turn. *)
Theorem C50_missing_via_refuted : exists file g order order' v,
  sort_perm (fun x => x) (g_way g) order /\ sort_perm (fun x => x) (g_head g) order' /\
  (forall a b x, g_head g !! a = Some x -> g_way g !! a = Some 0 -> g_tail g !! b = Some x -> g_way g !! b = Some 1 -> x = v) /\
  grid_load order order' file [mkRestr 20 false LeftTurn 10 (Some 1) 11] (fun _ => false) = Some (g, ([3], [1])) /\
  grid_load order order' file [mkRestr 20 false LeftTurn 10 None 11] (fun _ => false) = Some (g, ([], [])).
Proof.
  exists [N_ 1 0 0; N_ 2 0 (-5); N_ 4 5 0; N_ 5 (-5) 0; W_ 10 [2; 1]; W_ 11 [5; 1; 4]; ERelation 20 [] 1]. eexists. exists [0;3;1;2;4;5], [3;4;5;0;1;2], 0.
  split_and!; cycle 3; [vm_compute; reflexivity|vm_compute; reflexivity|apply sorted_order_sound; vm_compute; reflexivity..|].
  intros a b x Ha Hwa Hb Hwb. cbn in *. destruct a as [|[|[|[|[|[|a]]]]]]; cbn in Ha, Hwa; try done; simplify_eq; try done. destruct b as [|[|[|[|[|[|b]]]]]]; cbn in Hb, Hwb; try done.
Qed.
Print Assumptions C50_missing_via_refuted.
