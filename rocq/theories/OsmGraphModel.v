(** Model of src/osm_graph_builder.cpp lines 1-367 ([c:]), include/routingkit/osm_graph_builder.h
    ([h:]) and the part of include/routingkit/osm_decoder.h it uses ([d:]): the scan that decides
    which nodes and ways matter, and the construction of the graph. The turn restrictions of the
    same file are in OsmTurnModel.

    A file is the list of its elements. Reading (osm_decoder.cpp, see OsmBlockModel) hands them to
    the callbacks one by one: [unordered_read_osm_pbf] in file order, [ordered_read_osm_pbf] first
    the nodes, then the ways, then the relations, each in file order.

    OSM ids are 64-bit and are [nat] here; the loop of make_large_enough_for does not end for ids
    from 2^63 on, see [grow64] below. Local ids are 32-bit and do not wrap around here. Floating
    point numbers are left abstract: [D] is double, [F] is float, and the operations are arguments.
    The callbacks are pure functions of their arguments. Log messages are left out.
    [None] is undefined behaviour, or a violated assertion that matters. *)
From Verif Require Import Base BitVectorModel IdMapperModel SortModel PermutationModel GraphUtilModel.

(** h:29-34 *)
Inductive way_direction := OpenBoth | OnlyForwards | OnlyBackwards | Closed.
(** h:41-47 *)
Inductive turn_direction := LeftTurn | RightTurn | StraightOn | UTurn.
(** h:58-62 *)
Inductive road_geometry := GeoNone | GeoUncompressed | GeoFirstLast.
(** d:13-17 *)
Inductive id_type := TNode | TWay | TRelation.
(** d:19-23. The role is a C string. *)
Record member := mkMember { m_type : id_type; m_id : nat; m_role : list N }.
(** h:49-56. [mandatory] is the category (h:36-39). [via] is [None] for -1. *)
Record restriction := mkRestr { r_relation : nat; mandatory : bool; r_direction : turn_direction; from_way : nat; via : option nat; to_way : nat }.

(** bit_vector.cpp:384-387 with 64-bit wrap around: the loop of make_large_enough_for. *)
Fixpoint grow64 (fuel : nat) (n x : N) : option N :=
  if (n <=? x)%N then match fuel with O => None | S fuel => grow64 fuel (N.shiftl n 1 mod 2 ^ 64)%N x end else Some n.

Section osm.
Context {D F T : Type}.

(** What a file contains (d:25-32, the arguments of the callbacks). *)
Inductive element :=
| ENode (id : nat) (lat lon : D) (tags : T)
| EWay (id : nat) (nodes : list nat) (tags : T)
| ERelation (id : nat) (members : list member) (tags : T).

(** h:15-19 *)
Record id_mapping := mkMapping { is_modelling_node : bitvec; is_routing_node : bitvec; is_routing_way : bitvec }.

(** ** load_osm_id_mapping_from_pbf *)
Section scan.
(** c:21-27. [is_routing_node] may be null. *)
Context (routing_node_pred : option (nat -> T -> bool)) (way_used : nat -> T -> bool) (all_routing : bool).

(** c:45-46 and the like: make_large_enough_for, then set *)
Definition mark (v : bitvec) (x : nat) : option bitvec := v ← bv_large_enough v x false; bv_set v x.

(** c:41-52 *)
Definition scan_node (id : nat) (tags : T) (m : id_mapping) : option id_mapping :=
  match routing_node_pred with
  | None => Some m
  | Some pred =>
      if pred id tags then
        md ← mark (is_modelling_node m) id;
        rt ← mark (is_routing_node m) id;
        Some (mkMapping md rt (is_routing_way m))
      else Some m
  end.

(** c:60-68 *)
Definition scan_way_node (x : nat) (s : bitvec * bitvec) : option (bitvec * bitvec) :=
  let '(md, rt) := s in
  md ← bv_large_enough md x false;
  b ← bv_is_set md x;
  if b : bool then rt ← mark rt x; Some (md, rt)
  else md ← bv_set md x; Some (md, rt).
(** c:85-91 *)
Definition scan_way_node_all (x : nat) (s : bitvec * bitvec) : option (bitvec * bitvec) :=
  let '(md, rt) := s in
  md ← bv_large_enough md x false;
  rt ← bv_large_enough rt x false;
  rt ← bv_set rt x;
  md ← bv_set md x;
  Some (md, rt).

(** c:54-78 and 79-97; the assertions are checked *)
Definition scan_way (id : nat) (nodes : list nat) (tags : T) (m : id_mapping) : option id_mapping :=
  if bool_decide (2 <= length nodes) && way_used id tags then
    wy ← mark (is_routing_way m) id;
    '(md, rt) ← for_each nodes (if all_routing then scan_way_node_all else scan_way_node) (is_modelling_node m, is_routing_node m);
    front ← head nodes; back ← last nodes;
    b ← bv_is_set md front; _ ← chk b;
    b ← bv_is_set md back; _ ← chk b;
    if all_routing then Some (mkMapping md rt wy)
    else
      rt ← mark rt front;
      rt ← mark rt back;
      Some (mkMapping md rt wy)
  else Some m.

Definition scan_element (e : element) (m : id_mapping) : option id_mapping :=
  match e with
  | ENode id _ _ tags => scan_node id tags m
  | EWay id nodes tags => scan_way id nodes tags m
  | ERelation _ _ _ => Some m
  end.
(** c:21-114, with c:99 *)
Definition load_osm_id_mapping (file : list element) : option id_mapping :=
  for_each file scan_element (mkMapping bv_empty bv_empty bv_empty).
End scan.

(** ** load_osm_routing_graph_from_pbf *)

(** The elements in the order in which ordered_read_osm_pbf hands them out
    (osm_decoder.cpp:665-718). *)
Definition is_node (e : element) : bool := match e with ENode _ _ _ _ => true | _ => false end.
Definition is_way (e : element) : bool := match e with EWay _ _ _ => true | _ => false end.
Definition is_relation (e : element) : bool := match e with ERelation _ _ _ => true | _ => false end.
Definition ordered_read (file : list element) : list element :=
  List.filter is_node file ++ List.filter is_way file ++ List.filter is_relation file.

(** The arrays that grow while the file is read (c:142-143, 213-214). *)
Record arcs := mkArcs {
  a_tail : list nat; a_head : list nat; a_dist : list N; a_way : list nat; a_anti : list bool;
  a_first : list nat; a_lat : list F; a_lon : list F; buf_lat : list F; buf_lon : list F }.

(** The floating point operations: the conversion of double to float, the value of the elements of
    a new vector (c:211-212), zero, addition, the distance of two points (geo_dist.h), and the
    conversion of a distance to unsigned (c:162, argument [dist]). *)
Context (narrow : D -> F) (fzero : F) (dzero : D) (dplus : D -> D -> D) (geo_dist : F -> F -> F -> F -> D) (to_unsigned : D -> N).

Definition keeps_geometry (geo : road_geometry) : bool := match geo with GeoNone => false | _ => true end.

(** c:161-193 *)
Definition on_new_arc (geo : road_geometry) (x y : nat) (dist : N) (w : nat) (anti : bool) (s : arcs) : option arcs :=
  let s := mkArcs (a_tail s ++ [x]) (a_head s ++ [y]) (a_dist s ++ [dist]) (a_way s ++ [w]) (a_anti s ++ [anti])
             (a_first s) (a_lat s) (a_lon s) (buf_lat s) (buf_lon s) in
  let add la lo := mkArcs (a_tail s) (a_head s) (a_dist s) (a_way s) (a_anti s)
             (a_first s ++ [length (a_lat s)]) (a_lat s ++ la) (a_lon s ++ lo) (buf_lat s) (buf_lon s) in
  match geo with
  | GeoNone => Some s
  | GeoUncompressed => Some (add (buf_lat s) (buf_lon s))
  | GeoFirstLast =>
      if decide (length (buf_lat s) = 1) then
        la ← head (buf_lat s); lo ← head (buf_lon s); Some (add [la] [lo])
      else if decide (buf_lat s <> []) then
        la ← head (buf_lat s); lo ← head (buf_lon s); la' ← last (buf_lat s); lo' ← last (buf_lon s);
        Some (add [la; la'] [lo; lo'])
      else Some (add [] [])
  end.

Definition with_buf (s : arcs) (la lo : list F) : arcs :=
  mkArcs (a_tail s) (a_head s) (a_dist s) (a_way s) (a_anti s) (a_first s) (a_lat s) (a_lon s) la lo.

(** std::vector::pop_back on a vector that is not empty *)
Definition pop_back {A} (l : list A) : option (list A) := _ ← chk (bool_decide (l <> [])); Some (take (length l - 1) l).

(** c:261-275 *)
Definition add_segment (geo : road_geometry) (dir : way_direction) (x y : nat) (d : D) (w : nat) (s : arcs) : option arcs :=
  let reversed s := with_buf s (reverse (buf_lat s)) (reverse (buf_lon s)) in
  match dir with
  | OnlyForwards => on_new_arc geo x y (to_unsigned d) w false s
  | OpenBoth => s ← on_new_arc geo x y (to_unsigned d) w false s; on_new_arc geo y x (to_unsigned d) w true (reversed s)
  | OnlyBackwards => on_new_arc geo y x (to_unsigned d) w true (reversed s)
  | Closed => None
  end.

(** c:239-282, one round: node [x] of the way. State: the arrays, the modelling id of the previous
    node, the routing id of the last routing node, the distance since then. *)
Definition way_step (geo : road_geometry) (mm rm : mapper) (lat lon : list F) (dir : way_direction) (w : nat)
    (x : nat) (st : arcs * nat * nat * D) : option (arcs * nat * nat * D) :=
  let '(s, prev, last_routing, d) := st in
  cur ← to_local mm x;
  la ← lat !! cur; lo ← lon !! cur; pla ← lat !! prev; plo ← lon !! prev;
  let d := dplus d (geo_dist la lo pla plo) in
  let s := if keeps_geometry geo then with_buf s (buf_lat s ++ [la]) (buf_lon s ++ [lo]) else s in
  r ← to_local_or rm x None;
  match r with
  | None => Some (s, cur, last_routing, d)
  | Some r =>
      s ← (if keeps_geometry geo then la ← pop_back (buf_lat s); lo ← pop_back (buf_lon s); Some (with_buf s la lo) else Some s);
      s ← add_segment geo dir last_routing r d w s;
      Some (with_buf s [] [], cur, r, dzero)
  end.

(** c:229-285 *)
Definition read_way (geo : road_geometry) (mm rm wm : mapper) (way_callback : nat -> nat -> T -> way_direction)
    (lat lon : list F) (id : nat) (nodes : list nat) (tags : T) (s : arcs) : option arcs :=
  w ← to_local_or wm id None;
  match w with
  | None => Some s
  | Some w =>
      let dir := way_callback id w tags in
      match dir with
      | Closed => Some s
      | _ =>
          match nodes with
          | [] => None (* node_list[0] *)
          | x :: rest =>
              prev ← to_local mm x;
              last_routing ← to_local rm x;
              '(s, _, _, _) ← for_each rest (way_step geo mm rm lat lon dir w) (s, prev, last_routing, dzero);
              Some s
          end
      end
  end.

(** c:222-228 *)
Definition read_node (mm : mapper) (id : nat) (la lo : D) (c : list F * list F) : option (list F * list F) :=
  let '(lat, lon) := c in
  r ← to_local_or mm id None;
  match r with
  | None => Some (lat, lon)
  | Some i => lat ← wr lat i (narrow la); lon ← wr lon i (narrow lo); Some (lat, lon)
  end.

(** c:198-209 and 220-289: the state is the coordinates, the arcs and the restrictions *)
Definition read_element (geo : road_geometry) (mm rm wm : mapper) (way_callback : nat -> nat -> T -> way_direction)
    (decoder : option (nat -> list member -> T -> list restriction))
    (e : element) (st : list F * list F * arcs * list restriction) : option (list F * list F * arcs * list restriction) :=
  let '(lat, lon, s, rs) := st in
  match e with
  | ENode id la lo _ => '(lat, lon) ← read_node mm id la lo (lat, lon); Some (lat, lon, s, rs)
  | EWay id nodes tags => s ← read_way geo mm rm wm way_callback lat lon id nodes tags s; Some (lat, lon, s, rs)
  | ERelation id ms tags => Some (lat, lon, s, match decoder with None => rs | Some dec => rs ++ dec id ms tags end)
  end.

(** c:309-345: the geometry in the order of the sorted arcs. [old] maps new to old arc ids. *)
Definition sort_geometry (old : list nat) (first : list nat) (lat lon : list F) : option (list nat * list F * list F) :=
  let first := first ++ [length lat] in
  '(nf, nla, nlo) ← for_each old (fun a '(nf, nla, nlo) =>
      lo ← first !! a; hi ← first !! S a;
      _ ← chk (bool_decide (lo <= hi /\ hi <= length lat /\ hi <= length lon));
      Some (nf ++ [length nla], nla ++ take (hi - lo) (drop lo lat), nlo ++ take (hi - lo) (drop lo lon))) ([], [], []);
  Some (nf ++ [length nla], nla, nlo).

(** h:64-90 without the forbidden turns, and the sorted tails, which are used for these *)
Record osm_graph := mkOsm {
  g_first_out : list nat; g_tail : list nat; g_head : list nat; g_way : list nat; g_dist : list N; g_lat : list F; g_lon : list F;
  g_anti : list bool; g_first_m : list nat; g_mlat : list F; g_mlon : list F }.

(** c:299-347 *)
Definition sort_arcs (asserts : bool) (geo : road_geometry) (node_count : nat) (s : arcs) : option (list nat * arcs) :=
  '(p, tail) ← compute_inverse_sort_permutation_first_by_tail_then_by_head_and_apply_sort_to_tail asserts node_count (a_tail s) (a_head s);
  head ← apply_inverse_permutation p (a_head s);
  dist ← apply_inverse_permutation p (a_dist s);
  way ← apply_inverse_permutation p (a_way s);
  anti ← apply_inverse_permutation p (a_anti s);
  first_out ← invert_vector tail node_count;
  '(nf, nla, nlo) ← (if keeps_geometry geo then old ← invert_permutation p; sort_geometry old (a_first s) (a_lat s) (a_lon s)
                     else Some (a_first s, a_lat s, a_lon s));
  Some (first_out, mkArcs tail head dist way anti nf nla nlo (buf_lat s) (buf_lon s)).

(** c:354-356 *)
Definition routing_among_modelling (mm rm : mapper) : option (list bool) :=
  v ← bv_new (local_id_count mm) false;
  v ← for_range 0 (local_id_count rm) (fun r v => g ← to_global rm r; i ← to_local mm g; bv_set v i) v;
  mapM (bv_is_set v) (seq 0 (local_id_count mm)).

(** c:132: the assertion at the start. [|] of the two vectors asserts that they have the same size
    (bit_vector.cpp:467). *)
Definition mapping_assertion (m : id_mapping) : option unit :=
  v ← bv_or (is_modelling_node m) (is_routing_node m);
  b ← bv_eq v (is_modelling_node m); chk b.

(** c:138-140 *)
Definition extracted_geometry (geo : road_geometry) (has_decoder : bool) : road_geometry :=
  match geo with GeoNone => if has_decoder then GeoFirstLast else GeoNone | _ => geo end.

(** c:116-367. The way callback may be null (c:134-136). Returns the graph, the three mappers and the
    restrictions. *)
Definition load_osm_arcs (asserts : bool) (file : list element) (m : id_mapping) (way_callback : option (nat -> nat -> T -> way_direction))
    (decoder : option (nat -> list member -> T -> list restriction)) (geometry_arg : road_geometry) :
    option (osm_graph * mapper * mapper * mapper * list restriction) :=
  _ ← (if asserts then mapping_assertion m else Some tt);
  let geo := extracted_geometry geometry_arg (bool_decide (is_Some decoder)) in
  let cb := default (fun _ _ _ => OpenBoth) way_callback in
  mm ← new_mapper (bv_size (is_modelling_node m)) (bv_data (is_modelling_node m));
  rm ← new_mapper (bv_size (is_routing_node m)) (bv_data (is_routing_node m));
  wm ← new_mapper (bv_size (is_routing_way m)) (bv_data (is_routing_way m));
  let n := local_id_count mm in
  '(lat, lon, s, rs) ← for_each (ordered_read file) (read_element geo mm rm wm cb decoder)
      (replicate n fzero, replicate n fzero, mkArcs [] [] [] [] [] [] [] [] [] [], []);
  '(first_out, s) ← sort_arcs asserts geo (local_id_count rm) s;
  keep ← routing_among_modelling mm rm;
  glat ← keep_element_of_vector_if keep lat;
  glon ← keep_element_of_vector_if keep lon;
  Some (mkOsm first_out (a_tail s) (a_head s) (a_way s) (a_dist s) glat glon (a_anti s) (a_first s) (a_lat s) (a_lon s), mm, rm, wm, rs).
End osm.
Arguments element : clear implicits.
