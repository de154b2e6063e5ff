(** What the graph extracted from an OSM file should be. *)
From Verif Require Import Base BitVectorModel BitVectorSpec OsmGraphModel.

(** A bit vector stands for the set of the indices of its true bits. *)
Definition set_rep (v : bitvec) (P : nat -> Prop) : Prop :=
  exists l, bv_rep v l /\ forall x, nth x l false = true <-> P x.

Section scan.
Context {D T : Type} (pred : option (nat -> T -> bool)) (used : nat -> T -> bool).

(** The ways that are used: at least two nodes, and wanted by the predicate. *)
Definition element_ways (e : element D T) : list (nat * list nat) :=
  match e with EWay id nodes tags => if bool_decide (2 <= length nodes) && used id tags then [(id, nodes)] else [] | _ => [] end.
Definition used_ways (file : list (element D T)) : list (nat * list nat) := flat_map element_ways file.
(** All node ids listed by the used ways, with repetitions. *)
Definition way_nodes (file : list (element D T)) : list nat := flat_map snd (used_ways file).
(** Nodes for which the node predicate holds. *)
Definition declared (file : list (element D T)) (x : nat) : Prop :=
  exists p lat lon tags, pred = Some p /\ ENode x lat lon tags ∈ file /\ p x tags = true.

(** The ways of the graph. *)
Definition is_way_of (file : list (element D T)) (id : nat) : Prop := exists nodes, (id, nodes) ∈ used_ways file.
(** The nodes whose position matters: the declared nodes and all nodes of used ways. *)
Definition modelling (file : list (element D T)) (x : nat) : Prop := declared file x \/ x ∈ way_nodes file.
(** The nodes of the graph: the declared ones, the ends of used ways, and the nodes that are listed
    at least twice by used ways (crossings); or all modelling nodes. *)
Definition way_end (file : list (element D T)) (x : nat) : Prop :=
  exists id nodes, (id, nodes) ∈ used_ways file /\ (head nodes = Some x \/ last nodes = Some x).
Definition routing (all : bool) (file : list (element D T)) (x : nat) : Prop :=
  if all then modelling file x
  else declared file x \/ way_end file x \/ 2 <= count_occ Nat.eq_dec (way_nodes file) x.
End scan.

(** The elements of a set of ids in increasing order; the local id of an element is its position. *)
Definition enum (P : nat -> Prop) (ids : list nat) : Prop := StronglySorted lt ids /\ forall x, x ∈ ids <-> P x.
(** How many elements are smaller: the local id of an element. *)
Definition rank (ids : list nat) (x : nat) : nat := length (filter (fun y => y < x) ids).

Section graph.
Context {D F T : Type} (narrow : D -> F) (fzero : F) (dzero : D) (dplus : D -> D -> D) (geo_dist : F -> F -> F -> F -> D) (to_unsigned : D -> N).

(** Where an OSM node is: what the last element for it says; (0,0) if there is none. *)
Definition position (file : list (element D T)) (x : nat) : F * F :=
  foldl (fun c e => match e with ENode id la lo _ => if decide (id = x) then (narrow la, narrow lo) else c | _ => c end) (fzero, fzero) file.

(** The nodes of a way after [x] and [inner], cut at the nodes in [R]: (start, inner nodes, end). *)
Fixpoint segments (R : nat -> bool) (x : nat) (inner rest : list nat) : list (nat * list nat * nat) :=
  match rest with
  | [] => []
  | y :: rest => if R y then (x, inner, y) :: segments R y [] rest else segments R x (inner ++ [y]) rest
  end.
Definition way_segments (R : nat -> bool) (nodes : list nat) : list (nat * list nat * nat) :=
  match nodes with [] => [] | x :: rest => segments R x [] rest end.

(** Length of a line from [x] through [l]. *)
Fixpoint line_length (pos : nat -> F * F) (d : D) (x : nat) (l : list nat) : D :=
  match l with [] => d | y :: l => line_length pos (dplus d (geo_dist (pos y).1 (pos y).2 (pos x).1 (pos x).2)) y l end.

(** An arc of the graph, in terms of OSM ids. *)
Record arc := mkArc { x_tail : nat; x_head : nat; x_way : nat; x_anti : bool; x_dist : N; x_geo : list (F * F) }.
Definition segment_arcs (pos : nat -> F * F) (id : nat) (dir : way_direction) (seg : nat * list nat * nat) : list arc :=
  let '(x, inner, y) := seg in
  let d := to_unsigned (line_length pos dzero x (inner ++ [y])) in
  let forward := mkArc x y id false d (map pos inner) in
  let backward := mkArc y x id true d (map pos (reverse inner)) in
  match dir with OpenBoth => [forward; backward] | OnlyForwards => [forward] | OnlyBackwards => [backward] | Closed => [] end.
(** The arcs of the ways in [W]; [num] are the local ids of the ways, which the callback gets. *)
Definition element_arcs (pos : nat -> F * F) (R W : nat -> bool) (num : nat -> nat) (cb : nat -> nat -> T -> way_direction) (e : element D T) : list arc :=
  match e with
  | EWay id nodes tags => if W id then flat_map (segment_arcs pos id (cb id (num id) tags)) (way_segments R nodes) else []
  | _ => []
  end.
Definition file_arcs (pos : nat -> F * F) (R W : nat -> bool) (num : nat -> nat) (cb : nat -> nat -> T -> way_direction) (file : list (element D T)) : list arc :=
  flat_map (element_arcs pos R W num cb) file.

(** How much of the geometry is stored. *)
Definition shown (geo : road_geometry) (l : list (F * F)) : list (F * F) :=
  match geo, l with
  | GeoUncompressed, _ => l
  | GeoFirstLast, a :: ((_ :: _) as r) => [a; default a (last r)]
  | GeoFirstLast, _ => l
  | GeoNone, _ => []
  end.

(** What is needed of the sets when a file is read: the first and the last node of every way of the
    graph that is not closed are in [R], all its nodes are in [M]. *)
Definition ways_ok (M R W : nat -> bool) (num : nat -> nat) (cb : nat -> nat -> T -> way_direction) (file : list (element D T)) : Prop :=
  forall id nodes tags, EWay id nodes tags ∈ file -> W id = true -> cb id (num id) tags <> Closed ->
    (exists x y, head nodes = Some x /\ R x = true /\ last nodes = Some y /\ R y = true) /\ Forall (fun z => M z = true) nodes.

(** Entry [i] of the graph is the arc [a]. *)
Record arc_entry (geo : road_geometry) (nodes ways : list nat) (g : osm_graph (F := F)) (i : nat) (a : arc) : Prop := {
  ae_tail : exists t, nodes !! t = Some (x_tail a) /\ g_tail g !! i = Some t;
  ae_head : exists h, nodes !! h = Some (x_head a) /\ g_head g !! i = Some h;
  ae_way : exists w, ways !! w = Some (x_way a) /\ g_way g !! i = Some w;
  ae_dist : g_dist g !! i = Some (x_dist a);
  ae_anti : g_anti g !! i = Some (x_anti a);
  ae_geo : geo <> GeoNone -> exists lo hi, g_first_m g !! i = Some lo /\ g_first_m g !! S i = Some hi /\
    lo <= hi <= length (g_mlat g) /\ length (g_mlon g) = length (g_mlat g) /\
    zip (take (hi - lo) (drop lo (g_mlat g))) (take (hi - lo) (drop lo (g_mlon g))) = shown geo (x_geo a) }.
End graph.

(** The restrictions that the decoder reports, in file order. *)
Definition file_restrictions {D T} (decoder : option (nat -> list member -> T -> list restriction)) (file : list (element D T)) : list restriction :=
  flat_map (fun e => match e, decoder with ERelation id ms tags, Some dec => dec id ms tags | _, _ => [] end) file.
