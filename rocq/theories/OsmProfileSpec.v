(** Values of tags. *)
From Coq Require Import Ascii String.
From Verif Require Import Base OsmGraphModel.

(** A list of values is separated by semicolons (59); spaces (32) before a value do not count. *)
Fixpoint fields (s : list N) : list (list N) :=
  match s with
  | [] => [[]]
  | c :: s => match fields s with f :: fs => if bool_decide (c = 59%N) then [] :: f :: fs else (c :: f) :: fs | [] => [] end
  end.
Fixpoint without_spaces (s : list N) : list N := match s with c :: s' => if bool_decide (c = 32%N) then without_spaces s' else s | [] => [] end.
Definition values (s : list N) : list (list N) := map without_spaces (fields s).

(** Decimal numbers *)
Definition digit (c : N) : Prop := (48 <= c <= 57)%N.
Definition decimal (ds : list N) : N := foldl (fun n c => n * 10 + (c - 48))%N 0%N ds.
(** The bytes of a string *)
Definition bytes (s : string) : list N := map N_of_ascii (list_ascii_of_string s).
Arguments bytes s%string_scope.
(** A limit in the usual form: a number, spaces, a unit. *)
Definition limit (s : list N) (ds : list N) (unit_ : list N) : Prop :=
  exists k, s = ds ++ replicate k 32%N ++ unit_ /\ ds <> [] /\ Forall digit ds.
Definition kmh_unit (u : list N) : Prop := u = [] \/ u = bytes "km/h" \/ u = bytes "kmh" \/ u = bytes "kph".
(** The limit in km/h that a value in the usual form means, rounded down. *)
Definition posted (s : list N) (n : N) : Prop :=
  exists ds u, limit s ds u /\
    ((kmh_unit u /\ n = decimal ds) \/ (u = bytes "mph" /\ n = decimal ds * 1609 / 1000)%N \/ (u = bytes "knots" /\ n = decimal ds * 1852 / 1000)%N).

(** The smallest number of a list and [x]. *)
Definition minimum (x : N) (l : list N) : N := foldr N.min x l.

(** ** Turn restrictions *)
Definition direction_name (d : turn_direction) : string :=
  match d with LeftTurn => "left_turn" | RightTurn => "right_turn" | StraightOn => "straight_on" | UTurn => "u_turn" end.
Definition restriction_value (is_mandatory : bool) (d : turn_direction) : list N :=
  (if is_mandatory then bytes "only_" else bytes "no_") ++ bytes (direction_name d).
Definition has_role (r : list N) (m : member) : Prop := m_role m = r.
Definition way_member (r : list N) (m : member) : Prop := m_role m = r /\ m_type m = TWay.
Global Instance way_member_dec r m : Decision (way_member r m).
Proof. unfold way_member. destruct (m_type m); [right; by intros [_ ?]| |right; by intros [_ ?]]. destruct (decide (m_role m = r)); [left|right]; naive_solver. Defined.
(** No via member, or one, which is a node. *)
Definition via_of (ms : list member) (v : option nat) : Prop :=
  match filter (fun m => m_role m = bytes "via") ms with
  | [] => v = None
  | [m] => m_type m = TNode /\ v = Some (m_id m)
  | _ => False
  end.
(** The relation with the given members and value of the tag means the restriction [r]. *)
Definition describes (relation : nat) (ms : list member) (value : option (list N)) (r : restriction) : Prop :=
  value = Some (restriction_value (mandatory r) (r_direction r)) /\ r_relation r = relation /\ via_of ms (via r) /\
  (exists m, m ∈ ms /\ way_member (bytes "from") m /\ m_id m = from_way r) /\
  (exists m, m ∈ ms /\ way_member (bytes "to") m /\ m_id m = to_way r) /\
  (mandatory r = true -> length (filter (way_member (bytes "from")) ms) = 1 /\ length (filter (way_member (bytes "to")) ms) = 1).

(** ** Ways *)
(** The value of a tag is the one of its first occurrence. *)
Definition value_of (tags : list (list N * list N)) (key : string) (v : list N) : Prop :=
  exists i, tags !! i = Some (bytes key, v) /\ forall j w, j < i -> tags !! j <> Some (bytes key, w).
Arguments value_of tags key%string_scope v.
Definition tag_is (tags : list (list N * list N)) (key value : string) : Prop := value_of tags key (bytes value).
Arguments tag_is tags (key value)%string_scope.
Definition no_tag (tags : list (list N * list N)) (key : string) : Prop := forall v, (bytes key, v) ∉ tags.
Arguments no_tag tags key%string_scope.
(** Two sets of tags with the same values *)
Definition same_values (tags tags' : list (list N * list N)) : Prop := forall key v, value_of tags key v <-> value_of tags' key v.
(** A value that speaks for the way being open for everybody (subject to the kind of road). *)
Definition car_access_values : list string := ["yes"; "permissive"; "delivery"; "designated"; "destination"]%string.
(** Roads for motor vehicles *)
Definition car_roads : list string :=
  ["motorway"; "motorway_link"; "trunk"; "trunk_link"; "primary"; "primary_link"; "secondary"; "secondary_link"; "tertiary"; "tertiary_link"; "unclassified"; "residential"; "living_street"; "service"; "track"]%string.
(** Ways that are not for motor vehicles *)
Definition no_car_ways : list string :=
  ["construction"; "path"; "footway"; "cycleway"; "bridleway"; "pedestrian"; "bus_guideway"; "raceway"; "escape"; "steps"; "proposed"; "conveying"]%string.
(** What is not a road but used nevertheless *)
Definition not_by_road (tags : list (list N * list N)) : Prop := (exists v, value_of tags "junction" v) \/ tag_is tags "route" "ferry" \/ exists v, value_of tags "ferry" v.
(** One of several values *)
Definition tag_one_of (tags : list (list N * list N)) (key : string) (l : list string) : Prop := exists x, x ∈ l /\ tag_is tags key x.
Arguments tag_one_of tags key%string_scope l%list_scope.
Definition forward_values : list string := ["yes"; "true"; "1"]%string.
Definition backward_values : list string := ["-1"; "reverse"; "backward"]%string.
Definition both_values : list string := ["no"; "false"; "0"]%string.
Definition changing_values : list string := ["reversible"; "alternating"]%string.
Definition free_access_values : list string := ["yes"; "permissive"; "delivery"; "designated"; "destination"; "agricultural"; "forestry"; "public"]%string.
Definition stop (tags : list (list N * list N)) : Prop :=
  tag_one_of tags "public_transport" ["stop_position"; "platform"; "stop_area"; "station"]%string \/ tag_one_of tags "railway" ["halt"; "platform"; "subway_entrance"; "station"; "tram_stop"]%string.
Definition motor_ways : list string := ["motorway"; "motorway_link"; "motorway_junction"; "trunk"; "trunk_link"; "construction"; "bus_guideway"; "raceway"; "conveying"; "proposed"]%string.
