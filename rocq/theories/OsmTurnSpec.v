(** Which turns the restrictions forbid. *)
From Verif Require Import Base OsmGraphModel OsmGraphSpec.

Section turns.
Context {F : Type} (turn_matches : turn_direction -> F * F -> F * F -> F * F -> bool).
Local Notation osm_graph := (osm_graph (F := F)).

(** The position of node [x]. *)
Definition node_at (g : osm_graph) (x : nat) (p : F * F) : Prop := g_lat g !! x = Some p.1 /\ g_lon g !! x = Some p.2.
(** The points on arc [a] between its ends, as far as they are stored. *)
Definition inner_points (g : osm_graph) (a : nat) (l : list (F * F)) : Prop :=
  exists lo hi, g_first_m g !! a = Some lo /\ g_first_m g !! S a = Some hi /\ lo <= hi <= length (g_mlat g) /\ length (g_mlon g) = length (g_mlat g) /\
    zip (take (hi - lo) (drop lo (g_mlat g))) (take (hi - lo) (drop lo (g_mlon g))) = l.
(** The last point of arc [a] before its head, the first point after its tail. *)
Definition point_before (g : osm_graph) (a : nat) (p : F * F) : Prop :=
  exists l, inner_points g a l /\ match last l with Some q => p = q | None => exists x, g_tail g !! a = Some x /\ node_at g x p end.
Definition point_after (g : osm_graph) (a : nat) (p : F * F) : Prop :=
  exists l, inner_points g a l /\ match head l with Some q => p = q | None => exists y, g_head g !! a = Some y /\ node_at g y p end.

(** Arcs of the ways of a restriction at node [v]. *)
Definition from_arc (g : osm_graph) (r : restriction) (v a : nat) : Prop := g_head g !! a = Some v /\ g_way g !! a = Some (from_way r).
Definition to_arc (g : osm_graph) (r : restriction) (v b : nat) : Prop := g_tail g !! b = Some v /\ g_way g !! b = Some (to_way r).
Definition candidate (g : osm_graph) (r : restriction) (v : nat) (t : nat * nat) : Prop := from_arc g r v t.1 /\ to_arc g r v t.2.
(** The turn has the direction that the restriction names. *)
Definition right_way (g : osm_graph) (r : restriction) (v : nat) (t : nat * nat) : Prop :=
  exists p c q, point_before g t.1 p /\ node_at g v c /\ point_after g t.2 q /\ turn_matches (r_direction r) p c q = true.
(** The turn that is meant: the only candidate, or else the only candidate with the right direction. *)
Definition meant (g : osm_graph) (r : restriction) (v : nat) (t : nat * nat) : Prop :=
  candidate g r v t /\
  ((forall u, candidate g r v u -> u = t) \/ (right_way g r v t /\ forall u, candidate g r v u -> right_way g r v u -> u = t)).

(** An order to go straight on along a way. *)
Definition straight (r : restriction) : Prop := via r = None /\ from_way r = to_way r /\ mandatory r = true.
(** An arc of the second way that leaves a head of the first one. *)
Definition crossing (g : osm_graph) (r : restriction) (b : nat) : Prop := exists a v, from_arc g r v a /\ to_arc g r v b.
(** The node at which the restriction holds: the given one, or the tail of the only such arc. *)
Definition place (g : osm_graph) (r : restriction) (v : nat) : Prop :=
  via r = Some v \/
  via r = None /\ ~ straight r /\ exists b, crossing g r b /\ g_tail g !! b = Some v /\ forall b', crossing g r b' -> b' = b.

(** For each way and node an arc of the way into the node, if there is one. *)
Definition selection (g : osm_graph) (c : nat -> nat -> option nat) : Prop :=
  forall w x, match c w x with
    | Some a => g_head g !! a = Some x /\ g_way g !! a = Some w
    | None => forall a, g_head g !! a = Some x -> g_way g !! a <> Some w end.

(** A restriction with local ids forbids the turn from arc [a] to arc [b]. *)
Definition forbids (g : osm_graph) (c : nat -> nat -> option nat) (r : restriction) (a b : nat) : Prop :=
  (exists v t, place g r v /\ meant g r v (a, t) /\ if mandatory r then g_tail g !! b = Some v /\ b <> t else b = t) \/
  (straight r /\ exists v o, g_way g !! o = Some (from_way r) /\ g_tail g !! o = Some v /\ c (from_way r) v = Some a /\ g_tail g !! b = Some v /\ b <> o).

(** The restriction with local instead of OSM ids. *)
Definition localised (nodes ways : list nat) (r r' : restriction) : Prop :=
  r_relation r' = r_relation r /\ mandatory r' = mandatory r /\ r_direction r' = r_direction r /\
  ways !! from_way r' = Some (from_way r) /\ ways !! to_way r' = Some (to_way r) /\
  match via r with None => via r' = None | Some x => exists v, via r' = Some v /\ nodes !! v = Some x end.
End turns.

(** Pairs in strictly increasing lexicographic order. *)
Definition lex_lt (p q : nat * nat) : Prop := p.1 < q.1 \/ p.1 = q.1 /\ p.2 < q.2.
