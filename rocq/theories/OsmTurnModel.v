(** Model of src/osm_graph_builder.cpp lines 375-829 ([c:]): the turn restrictions become forbidden
    turns of the graph, and load_osm_routing_graph_from_pbf as a whole.

    A restriction has OSM ids first and local ids after [map_restriction]; the code stores both in
    the same struct. The missing via node is (uint64_t)-1 first and invalid_id then; here it is
    [None] in both cases. The code moves the restrictions that remain to the front of their vector
    and cuts it off; here they are appended to a new list. Instead of two vectors with the ends of
    the forbidden turns there is a list of pairs until they are sorted. Assertions that the
    following accesses would violate as well are checked. Log messages are left out, so the
    statements that only count for them are left out, too. *)
From Verif Require Import Base IdMapperModel SortModel PermutationModel GraphUtilModel OsmGraphModel.

(** The frequent loop [for(i=first\[x\]; i!=first\[x+1\]; ++i)], for instance c:493; it ends if the entries are in order. *)
Definition range_loop {S} (first : list nat) (x : nat) (body : nat -> S -> option S) (s : S) : option S :=
  lo ← first !! x; hi ← first !! Datatypes.S x; _ ← chk (bool_decide (lo <= hi)); for_range lo hi body s.
(** The same with [arc = index\[i\]], for instance c:493-494. *)
Definition group_loop {S} (first index : list nat) (x : nat) (body : nat -> S -> option S) (s : S) : option S :=
  range_loop first x (fun i s => a ← index !! i; body a s) s.

(** c:396-427, one round: the restriction with local ids, or nothing. *)
Definition map_restriction (rm wm : mapper) (r : restriction) (out : list restriction) : option (list restriction) :=
  f ← to_local_or wm (from_way r) None;
  t ← to_local_or wm (to_way r) None;
  v ← match via r with None => Some (Some None) | Some x => l ← to_local_or rm x None; Some (match l with Some l => Some (Some l) | None => None end) end;
  match f, t, v with
  | Some f, Some t, Some v => Some (out ++ [mkRestr (r_relation r) (mandatory r) (r_direction r) f v t])
  | _, _, _ => Some out
  end.

(** c:445-451 *)
Definition add_forbidden (arc_count a b : nat) (turns : list (nat * nat)) : option (list (nat * nat)) :=
  _ ← chk (bool_decide (a < arc_count /\ b < arc_count)); Some (turns ++ [(a, b)]).

(** c:460-461 and c:604-605: the indices sorted by key and where the indices of a key start. [std_sort] is
    what std::sort does. *)
Definition group (std_sort : list nat -> list nat) (keys : list nat) (count : nat) : option (list nat * list nat) :=
  index ← compute_sort_permutation_using_key (fun x => x) std_sort keys count;
  sorted ← apply_permutation index keys;
  first ← invert_vector sorted count;
  Some (index, first).

Section turns.
Context {F : Type}.
(** c:669-743 without the coordinates: is the angle at the via node, coming from the first point and
    going to the last one, right for the direction. *)
Context (turn_matches : turn_direction -> F * F -> F * F -> F * F -> bool).
Local Notation osm_graph := (osm_graph (F := F)).

(** ** c:473-590: missing via nodes *)

(** State: the restrictions that remain, the forbidden turns, [is_head_of_from_way],
    [incomming_arc_of_way_into_node]. *)
Definition fill_state : Type := list restriction * list (nat * nat) * list bool * list (option nat).

(** c:493-511 *)
Definition go_straight (g : osm_graph) (index first : list nat) (w : nat) (turns : list (nat * nat)) (inc : list (option nat)) :
    option (list (nat * nat) * list (option nat)) :=
  inc ← group_loop first index w (fun a inc => y ← g_head g !! a; wr inc y (Some a)) inc;
  turns ← group_loop first index w (fun o turns =>
      v ← g_tail g !! o;
      i ← inc !! v;
      match i with
      | None => Some turns
      | Some i => range_loop (g_first_out g) v (fun b turns => if decide (b <> o) then add_forbidden (length (g_head g)) i b turns else Some turns) turns
      end) turns;
  inc ← group_loop first index w (fun a inc => y ← g_head g !! a; wr inc y None) inc;
  Some (turns, inc).

(** c:515-537: the first candidate for the via node and another one *)
Definition find_via (g : osm_graph) (index first : list nat) (f t : nat) (is_head : list bool) : option (option nat * option nat * list bool) :=
  is_head ← group_loop first index f (fun a h => y ← g_head g !! a; wr h y true) is_head;
  '(v, v2) ← group_loop first index t (fun a '(v, v2) =>
      x ← g_tail g !! a;
      b ← is_head !! x;
      if b : bool then match v with Some _ => Some (v, Some x) | None => Some (Some x, v2) end else Some (v, v2)) (None, None);
  is_head ← group_loop first index f (fun a h => y ← g_head g !! a; wr h y false) is_head;
  Some (v, v2, is_head).

(** c:487-577, one round *)
Definition fill_step (g : osm_graph) (index first : list nat) (r : restriction) (s : fill_state) : option fill_state :=
  let '(out, turns, is_head, inc) := s in
  match via r with
  | Some _ => Some (out ++ [r], turns, is_head, inc)
  | None =>
      if decide (from_way r = to_way r /\ mandatory r = true) then
        '(turns, inc) ← go_straight g index first (from_way r) turns inc;
        Some (out, turns, is_head, inc)
      else
        '(v, v2, is_head) ← find_via g index first (from_way r) (to_way r) is_head;
        match v, v2 with
        | Some v, None => Some (out ++ [mkRestr (r_relation r) (mandatory r) (r_direction r) (from_way r) (Some v) (to_way r)], turns, is_head, inc)
        | _, _ => Some (out, turns, is_head, inc)
        end
  end.

(** ** c:593-788: the forbidden turns *)

(** c:612-620 *)
Definition from_candidates (g : osm_graph) (in_arc first_in : list nat) (f v : nat) : option (list nat) :=
  group_loop first_in in_arc v (fun a l => w ← g_way g !! a; Some (if decide (w = f) then l ++ [a] else l)) [].
(** c:638-644 *)
Definition to_candidates (g : osm_graph) (t v : nat) : option (list nat) :=
  range_loop (g_first_out g) v (fun a l => w ← g_way g !! a; Some (if decide (w = t) then l ++ [a] else l)) [].

(** c:688-695: the last point before the via node *)
Definition from_point (g : osm_graph) (a : nat) : option (F * F) :=
  lo ← g_first_m g !! a; hi ← g_first_m g !! S a;
  if decide (lo = hi) then x ← g_tail g !! a; la ← g_lat g !! x; lo ← g_lon g !! x; Some (la, lo)
  else _ ← chk (bool_decide (1 <= hi)); la ← g_mlat g !! (hi - 1); lo ← g_mlon g !! (hi - 1); Some (la, lo).
(** c:700-708: the first point after the via node *)
Definition to_point (g : osm_graph) (a : nat) : option (F * F) :=
  lo ← g_first_m g !! a; hi ← g_first_m g !! S a;
  if decide (lo = hi) then y ← g_head g !! a; la ← g_lat g !! y; lo ← g_lon g !! y; Some (la, lo)
  else la ← g_mlat g !! lo; lo ← g_mlon g !! lo; Some (la, lo).

(** c:663-771: the turn that is meant. [from] and [to] are uninitialised until a candidate matches. *)
Definition choose_turn (g : osm_graph) (dir : turn_direction) (v : nat) (from to : list nat) : option (option (nat * nat)) :=
  match from, to with
  | [a], [b] => Some (Some (a, b))
  | _, _ =>
      la ← g_lat g !! v; lo ← g_lon g !! v;
      '(count, found) ← for_each from (fun a s =>
          p ← from_point g a;
          for_each to (fun b '(count, found) =>
              q ← to_point g b;
              if turn_matches dir p (la, lo) q then Some (S count, Some (a, b)) else Some (count, found)) s) (0, None);
      if decide (count = 1) then t ← found; Some (Some t) else Some None
  end.

(** c:607-782, one round. The assertions are checked. *)
Definition build_step (g : osm_graph) (in_arc first_in : list nat) (r : restriction) (turns : list (nat * nat)) : option (list (nat * nat)) :=
  v ← via r;
  from ← from_candidates g in_arc first_in (from_way r) v;
  if decide (from = []) then Some turns
  else
    _ ← for_each from (fun a _ => y ← g_head g !! a; chk (bool_decide (y = v))) tt;
    to ← to_candidates g (to_way r) v;
    if decide (to = []) then Some turns
    else
      _ ← for_each to (fun b _ => x ← g_tail g !! b; chk (bool_decide (x = v))) tt;
      t ← choose_turn g (r_direction r) v from to;
      match t with
      | None => Some turns
      | Some (a, b) =>
          if mandatory r then range_loop (g_first_out g) v (fun i turns => if decide (i <> b) then add_forbidden (length (g_head g)) a i turns else Some turns) turns
          else add_forbidden (length (g_head g)) a b turns
      end.

(** c:790-819 *)
Definition sort_turns (asserts : bool) (arc_count : nat) (turns : list (nat * nat)) : option (list nat * list nat) :=
  let from := map fst turns in let to := map snd turns in
  '(p, from) ← compute_inverse_sort_permutation_first_by_tail_then_by_head_and_apply_sort_to_tail asserts arc_count from to;
  to ← apply_inverse_permutation p to;
  dup ← mapM (fun x => if decide (x = 0) then Some false
                       else a ← from !! (x - 1); b ← from !! x; c ← to !! (x - 1); d ← to !! x; Some (bool_decide (a = b) && bool_decide (c = d))) (seq 0 (length from));
  from ← remove_element_from_vector_if dup from;
  to ← remove_element_from_vector_if dup to;
  Some (from, to).

(** c:375-823. Two calls of std::sort. *)
Definition forbidden_turns (std_sort std_sort' : list nat -> list nat) (asserts : bool) (g : osm_graph) (rm wm : mapper) (rs : list restriction) : option (list nat * list nat) :=
  match rs with
  | [] => Some ([], [])
  | _ =>
      let node_count := length (g_first_out g) - 1 in
      rs ← for_each rs (map_restriction rm wm) [];
      '(index, first) ← group std_sort (g_way g) (local_id_count wm);
      '(rs, turns, _, _) ← for_each rs (fill_step g index first) ([], [], replicate node_count false, replicate node_count None);
      '(in_arc, first_in) ← group std_sort' (g_head g) node_count;
      turns ← for_each rs (build_step g in_arc first_in) turns;
      sort_turns asserts (length (g_head g)) turns
  end.
End turns.

(** c:116-830: the graph and the forbidden turns *)
Definition load_osm_routing_graph {D F T : Type} (narrow : D -> F) (fzero : F) (dzero : D) (dplus : D -> D -> D) (geo_dist : F -> F -> F -> F -> D) (to_unsigned : D -> N)
    (turn_matches : turn_direction -> F * F -> F * F -> F * F -> bool) (std_sort std_sort' : list nat -> list nat) (asserts : bool)
    (file : list (element D T)) (m : id_mapping) (way_callback : option (nat -> nat -> T -> way_direction))
    (decoder : option (nat -> list member -> T -> list restriction)) (geometry : road_geometry) : option (osm_graph (F := F) * (list nat * list nat)) :=
  '(g, mm, rm, wm, rs) ← load_osm_arcs narrow fzero dzero dplus geo_dist to_unsigned asserts file m way_callback decoder geometry;
  turns ← forbidden_turns turn_matches std_sort std_sort' asserts g rm wm rs;
  Some (g, turns).
