(** Model of src/osm_profile.cpp: what the tags of a way or a relation mean for a car, a bicycle or a
    pedestrian.

    A C string is the list of its bytes without the terminating zero (see TagMapModel); a pointer into
    a string is the rest of the string from there on. Tags are a list of pairs and [operator\[\]] of
    TagMap gives the value of the first pair with the key, which is what C19 says. Log messages are
    left out. Chains of comparisons with the same result are a list of strings. [unsigned] is 32-bit
    with wrap around. [None] is an access outside an array. *)
From Coq Require Import Ascii String.
From Verif Require Import Base TagMapModel OsmGraphModel.

(** String literals *)
Definition str (s : string) : cstring := map N_of_ascii (list_ascii_of_string s).
Arguments str s%string_scope.
Definition tag_list : Type := list (cstring * cstring).
(** tag_map.h:87-95, see C19 *)
Definition get (tags : tag_list) (key : string) : option cstring := snd <$> find (fun kv => bool_decide (kv.1 = str key)) tags.
Arguments get tags key%string_scope.
(** 6-8, for one or more literals *)
Definition str_in (s : cstring) (l : list string) : bool := existsb (fun x => bool_decide (s = str x)) l.
Arguments str_in s l%list_scope.
(** [x && str_eq(x, ...)], for instance line 73 *)
Definition tag_in (tags : tag_list) (key : string) (l : list string) : bool := match get tags key with Some v => str_in v l | None => false end.
Arguments tag_in tags key%string_scope l%list_scope.
(** [x != nullptr], for instance line 69 *)
Definition has_tag (tags : tag_list) (key : string) : bool := bool_decide (is_Some (get tags key)).
Arguments has_tag tags key%string_scope.
Local Open Scope string_scope.

(** 10-18. 63 is the question mark. *)
Fixpoint str_wild_char_eq (l r : cstring) : bool :=
  match l, r with
  | a :: l, b :: r => if bool_decide (a <> 63%N /\ b <> 63%N /\ a <> b) then false else str_wild_char_eq l r
  | [], [] => true
  | _, _ => false
  end.
(** 20-26 *)
Fixpoint starts_with (prefix s : cstring) : bool :=
  match prefix, s with
  | [], _ => true
  | a :: prefix, b :: s => if bool_decide (b = a) then starts_with prefix s else false
  | _ :: _, [] => false
  end.

(** 32-35: 'A' to 'Z' *)
Definition lower (c : N) : N := if bool_decide (65 <= c <= 90)%N then (c - 65 + 97)%N else c.
(** 29-40. [pos] is [out], [end_] is [out_end], as positions in the array. *)
Fixpoint copy_lower (inp : cstring) (out : list N) (pos end_ : nat) : option (list N) :=
  match inp with
  | [] => wr out pos 0%N
  | c :: inp => if decide (pos = end_) then wr out pos 0%N else out ← wr out pos (lower c); copy_lower inp out (S pos) end_
  end.
Definition copy_str_and_make_lower_case (inp : cstring) (out : list N) (out_size : nat) : option (list N) := copy_lower inp out 0 (out_size - 1).

(** The C string at a position of an array. *)
Fixpoint c_string_at (fuel : nat) (buf : list N) (i : nat) : option cstring :=
  match fuel with
  | O => None
  | S fuel => c ← buf !! i; if decide (c = 0%N) then Some [] else s ← c_string_at fuel buf (S i); Some (c :: s)
  end.
(** 46-47 and 59-60 *)
Fixpoint skip_spaces (fuel : nat) (buf : list N) (i : nat) : option nat :=
  match fuel with
  | O => None
  | S fuel => c ← buf !! i; if decide (c = 32%N) then skip_spaces fuel buf (S i) else Some i
  end.
(** 50-51. 59 is the semicolon. *)
Fixpoint find_separator (fuel : nat) (buf : list N) (i : nat) : option nat :=
  match fuel with
  | O => None
  | S fuel => c ← buf !! i; if decide (c <> 0%N /\ c <> 59%N) then find_separator fuel buf (S i) else Some i
  end.
(** 49-63, from the position [i] = [value_begin] = [in]. The calls of [f] change the state [s]. The fuel of the inner loops
    is enough for the array. *)
Fixpoint split_loop {S} (fuel : nat) (f : cstring -> S -> S) (buf : list N) (i : nat) (s : S) : option S :=
  match fuel with
  | O => None
  | Datatypes.S fuel =>
      j ← find_separator (Datatypes.S (length buf)) buf i;
      c ← buf !! j;
      if decide (c = 0%N) then v ← c_string_at (Datatypes.S (length buf)) buf i; Some (f v s)
      else
        buf ← wr buf j 0%N;
        v ← c_string_at (Datatypes.S (length buf)) buf i;
        k ← skip_spaces (Datatypes.S (length buf)) buf (Datatypes.S j);
        split_loop fuel f buf k (f v s)
  end.
(** 42-64 *)
Definition split_str_at_osm_value_separators {S} (buf : list N) (f : cstring -> S -> S) (s : S) : option S :=
  i ← skip_spaces (Datatypes.S (length buf)) buf 0; split_loop (Datatypes.S (length buf)) f buf i s.

(** 67-172 *)
Definition is_osm_way_used_by_pedestrians (tags : tag_list) : bool :=
  if has_tag tags "junction" then true
  else if tag_in tags "route" ["ferry"] then true
  else if tag_in tags "ferry" ["ferry"] then true
  else if tag_in tags "public_transport" ["stop_position"; "platform"; "stop_area"; "station"] then true
  else if tag_in tags "railway" ["halt"; "platform"; "subway_entrance"; "station"; "tram_stop"] then true
  else match get tags "highway" with
  | None => false
  | Some highway =>
      if has_tag tags "access" && negb (tag_in tags "access" ["yes"; "permissive"; "delivery"; "designated"; "destination"; "agricultural"; "forestry"; "public"]) then false
      else if tag_in tags "crossing" ["no"] then false
      else if str_in highway ["secondary"; "tertiary"; "unclassified"; "residential"; "service"; "secondary_link"; "tertiary_link"; "living_street"; "residential"; "track"; "bicycle_road";
                              "path"; "footway"; "cycleway"; "bridleway"; "pedestrian"; "escape"; "steps"; "crossing"; "escalator"; "elevator"; "platform"; "ferry"] then true
      else if str_in highway ["motorway"; "motorway_link"; "motorway_junction"; "trunk"; "trunk_link"; "primary"; "primary_link"; "construction"; "bus_guideway"; "raceway"; "proposed"; "conveying"] then false
      else false
  end.

(** 174-263 *)
Definition is_osm_way_used_by_cars (tags : tag_list) : bool :=
  if has_tag tags "junction" then true
  else if tag_in tags "route" ["ferry"] then true
  else if tag_in tags "ferry" ["yes"] then true
  else match get tags "highway" with
  | None => false
  | Some highway =>
      if tag_in tags "motorcar" ["no"] then false
      else if tag_in tags "motor_vehicle" ["no"] then false
      else if has_tag tags "access" && negb (tag_in tags "access" ["yes"; "permissive"; "delivery"; "designated"; "destination"]) then false
      else if str_in highway ["motorway"; "trunk"; "primary"; "secondary"; "tertiary"; "unclassified"; "residential"; "service"; "motorway_link"; "trunk_link"; "primary_link"; "secondary_link";
                              "tertiary_link"; "motorway_junction"; "living_street"; "residential"; "track"; "ferry"] then true
      else if str_in highway ["bicycle_road"] then tag_in tags "motorcar" ["yes"]
      else if str_in highway ["construction"; "path"; "footway"; "cycleway"; "bridleway"; "pedestrian"; "bus_guideway"; "raceway"; "escape"; "steps"; "proposed"; "conveying"] then false
      else if tag_in tags "oneway" ["reversible"; "alternating"] then false
      else if has_tag tags "maxspeed" then true
      else false
  end.

(** 266-291 *)
Definition get_osm_car_direction_category (tags : tag_list) : way_direction :=
  match get tags "oneway" with
  | Some oneway =>
      if str_in oneway ["-1"; "reverse"; "backward"] then OnlyBackwards
      else if str_in oneway ["yes"; "true"; "1"] then OnlyForwards
      else if str_in oneway ["no"; "false"; "0"] then OpenBoth
      else if str_in oneway ["reversible"; "alternating"] then Closed
      else OpenBoth
  | None =>
      if tag_in tags "junction" ["roundabout"] then OnlyForwards
      else if tag_in tags "highway" ["motorway"; "motorway_link"] then OnlyForwards
      else OpenBoth
  end.

(** 336-341: the digits at the beginning *)
Fixpoint parse_digits (s : cstring) (speed : N) : N * cstring :=
  match s with
  | c :: s' => if bool_decide (48 <= c <= 57)%N then parse_digits s' ((speed * 10 + (c - 48)) mod 2 ^ 32)%N else (speed, s)
  | [] => (speed, [])
  end.
(** 342-343 *)
Fixpoint drop_spaces (s : cstring) : cstring := match s with c :: s' => if decide (c = 32%N) then drop_spaces s' else s | [] => [] end.
(** 294-361 *)
Definition parse_maxspeed_value (s : cstring) : N :=
  if str_in s ["signals"; "variable"] then inf_weight
  else if str_in s ["none"; "unlimited"] then 130%N
  else if str_in s ["walk"; "foot"] || str_wild_char_eq s (str "??:walk") || str_in s ["walking_pace"; "schritt"] then 5%N
  else if str_wild_char_eq s (str "??:urban") || str_in s ["urban"] then 40%N
  else if str_wild_char_eq s (str "??:living_street") || str_in s ["living_street"] then 10%N
  else if str_in s ["de:rural"; "at:rural"; "ro:rural"; "rural"] then 100%N
  else if str_in s ["ru:rural"; "ua:rural"] then 90%N
  else if str_in s ["ru:motorway"] then 110%N
  else if str_in s ["ch:motorway"] then 120%N
  else if str_in s ["at:motorway"; "ro:motorway"; "de:motorway"] then 130%N
  else if str_in s ["national"] then 100%N
  else if str_in s ["ro:trunk"] then 100%N
  else if str_in s ["dk:rural"; "ch:rural"; "fr:rural"] then 80%N
  else if str_in s ["it:rural"; "hu:rural"] then 90%N
  else if str_in s ["de:zone:30"; "de:zone30"; "at:zone30"] then 30%N
  else match s with
  | c :: _ =>
      if bool_decide (48 <= c <= 57)%N then
        let '(speed, rest) := parse_digits s 0 in
        let unit_ := drop_spaces rest in
        if bool_decide (unit_ = []) || str_in unit_ ["km/h"; "kmh"; "kph"] then speed
        else if str_in unit_ ["mph"] then ((speed * 1609) mod 2 ^ 32 / 1000)%N
        else if str_in unit_ ["knots"] then ((speed * 1852) mod 2 ^ 32 / 1000)%N
        else speed
      else inf_weight
  | [] => inf_weight
  end.

(** 390-424: the speed of a kind of road *)
Definition highway_speed (highway : cstring) : option N :=
  if str_in highway ["motorway"] then Some 90%N
  else if str_in highway ["motorway_link"] then Some 45%N
  else if str_in highway ["trunk"] then Some 85%N
  else if str_in highway ["trunk_link"] then Some 40%N
  else if str_in highway ["primary"] then Some 65%N
  else if str_in highway ["primary_link"] then Some 30%N
  else if str_in highway ["secondary"] then Some 55%N
  else if str_in highway ["secondary_link"] then Some 25%N
  else if str_in highway ["tertiary"] then Some 40%N
  else if str_in highway ["tertiary_link"] then Some 20%N
  else if str_in highway ["unclassified"] then Some 25%N
  else if str_in highway ["residential"] then Some 25%N
  else if str_in highway ["living_street"] then Some 10%N
  else if str_in highway ["service"] then Some 8%N
  else if str_in highway ["track"] then Some 8%N
  else if str_in highway ["ferry"] then Some 5%N
  else None.
(** 390-450 *)
Definition default_speed (tags : tag_list) : N :=
  match highway ← get tags "highway"; highway_speed highway with
  | Some speed => speed
  | None =>
      if has_tag tags "junction" then 20%N
      else if tag_in tags "route" ["ferry"] then 5%N
      else if has_tag tags "ferry" then 5%N
      else 50%N
  end.
(** 364-451. [garbage] is the content of the array of 1024 bytes before the copy. *)
Definition get_osm_way_speed (garbage : list N) (tags : tag_list) : option N :=
  match get tags "maxspeed" with
  | Some maxspeed =>
      if str_in maxspeed ["unposted"] then Some (default_speed tags)
      else
        buf ← copy_str_and_make_lower_case maxspeed garbage (1024 - 1);
        speed ← split_str_at_osm_value_separators buf (fun v speed => N.min (parse_maxspeed_value v) speed) inf_weight;
        let speed := if decide (speed = 0%N) then 1%N else speed in
        if decide (speed <> inf_weight) then Some speed else Some (default_speed tags)
  | None => Some (default_speed tags)
  end.

(** 453-466. 59 is the semicolon. *)
Definition get_osm_way_name (tags : tag_list) : cstring :=
  match get tags "name", get tags "ref" with
  | Some name, Some ref => (name ++ [59%N] ++ ref)%list
  | Some name, None => name
  | None, Some ref => ref
  | None, None => []
  end.

(** 470-566 *)
Definition is_osm_way_used_by_bicycles (tags : tag_list) : bool :=
  if has_tag tags "junction" then true
  else if tag_in tags "route" ["ferry"] then true
  else if tag_in tags "ferry" ["ferry"] then true
  else match get tags "highway" with
  | None => false
  | Some highway =>
      if str_in highway ["proposed"] then false
      else if has_tag tags "access" && negb (tag_in tags "access" ["yes"; "permissive"; "delivery"; "designated"; "destination"; "agricultural"; "forestry"; "public"]) then false
      else if tag_in tags "bicycle" ["no"; "use_sidepath"] then false
      else if has_tag tags "cycleway" then true
      else if has_tag tags "cycleway:left" then true
      else if has_tag tags "cycleway:right" then true
      else if has_tag tags "cycleway:both" then true
      else if str_in highway ["secondary"; "tertiary"; "unclassified"; "residential"; "service"; "secondary_link"; "tertiary_link"; "living_street"; "residential"; "track"; "bicycle_road";
                              "primary"; "primary_link"; "path"; "footway"; "cycleway"; "bridleway"; "pedestrian"; "crossing"; "escape"; "steps"; "ferry"] then true
      else if str_in highway ["motorway"; "motorway_link"; "motorway_junction"; "trunk"; "trunk_link"; "construction"; "bus_guideway"; "raceway"; "conveying"] then false
      else false
  end.

(** 568-627 *)
Definition get_osm_bicycle_direction_category (tags : tag_list) : way_direction :=
  match get tags "oneway:bicycle" with
  | Some o =>
      if str_in o ["-1"; "opposite"] then OnlyBackwards
      else if str_in o ["1"; "yes"; "true"; "no_planned"] then OnlyForwards
      else if str_in o ["0"; "no"; "false"; "tolerated"; "permissive"] then OpenBoth
      else Closed
  | None =>
      match get tags "oneway" with
      | None => OpenBoth
      | Some oneway =>
          if str_in oneway ["no"; "false"; "0"] then OpenBoth
          else if tag_in tags "cycleway" ["opposite"; "opposite_track"; "opposite_lane"; "opposite_share_busway"] then OpenBoth
          else if has_tag tags "cycleway:both" then OpenBoth
          else if has_tag tags "cycleway:left" && has_tag tags "cycleway:right" then OpenBoth
          else if str_in oneway ["-1"; "reverse"; "backward"] then OnlyBackwards
          else if str_in oneway ["yes"; "true"; "1"] then OnlyForwards
          else if str_in oneway ["reversible"; "alternating"] then Closed
          else Closed
      end
  end.

(** 629-635 *)
Definition get_min_bicycle_comfort_level : N := 0%N.
Definition get_max_bicycle_comfort_level : N := 4%N.
(** 637-658 *)
Definition get_osm_way_bicycle_comfort_level (tags : tag_list) : N :=
  if tag_in tags "highway" ["cycleway"] then 4%N
  else if has_tag tags "cycleway" then if tag_in tags "cycleway" ["track"] then 3%N else 2%N
  else if tag_in tags "highway" ["primary"; "primary_link"] then 0%N
  else if tag_in tags "bicycle" ["dismount"] then 0%N
  else 1%N.

(** ** 660-801: turn restrictions *)

(** 674-684: mandatory or prohibitive, and the rest of the value *)
Definition restriction_category (value : cstring) : option (bool * cstring) :=
  if starts_with (str "only_") value then Some (true, drop 5 value)
  else if starts_with (str "no_") value then Some (false, drop 3 value)
  else None.
(** 688-700 *)
Definition restriction_direction (s : cstring) : option turn_direction :=
  if str_in s ["left_turn"] then Some LeftTurn
  else if str_in s ["right_turn"] then Some RightTurn
  else if str_in s ["straight_on"] then Some StraightOn
  else if str_in s ["u_turn"] then Some UTurn
  else None.
(** 702-724: via_member, from_member_list, to_member_list; [None] in the state after the return in line 711. *)
Definition collect_members (ms : list member) : option (option (option nat * list nat * list nat)) :=
  for_range 0 (length ms) (fun i s =>
    match s with
    | None => Some None
    | Some (via_member, from, to) =>
        m ← ms !! i;
        if str_in (m_role m) ["via"] then match via_member with Some _ => Some None | None => Some (Some (Some i, from, to)) end
        else if str_in (m_role m) ["from"] then Some (Some (via_member, (from ++ [i])%list, to))
        else if str_in (m_role m) ["to"] then Some (Some (via_member, from, (to ++ [i])%list))
        else Some s
    end) (Some (None, [], [])).
(** 742-772: the members that are ways *)
Definition only_ways (ms : list member) (l : list nat) : option (list nat) :=
  for_each l (fun i l => m ← ms !! i; Some (match m_type m with TWay => (l ++ [i])%list | _ => l end)) [].
(** 660-801. The restrictions in the order of the calls of on_new_turn_restriction. -1 as an id of the via node means that
    there is none (737, 739). *)
Definition decode_osm_car_turn_restrictions (relation : nat) (ms : list member) (tags : tag_list) : option (list restriction) :=
  match get tags "restriction" with
  | None => Some []
  | Some value =>
      match restriction_category value with
      | None => Some []
      | Some (is_mandatory, rest) =>
          match restriction_direction rest with
          | None => Some []
          | Some direction =>
              s ← collect_members ms;
              match s with
              | None => Some []
              | Some (via_member, from, to) =>
                  via_type ← match via_member with None => Some None | Some i => m ← ms !! i; Some (Some (m_type m)) end;
                  match via_type with
                  | Some TRelation => Some []
                  | Some TWay => Some []
                  | _ =>
                    via_node ← match via_member with None => Some None | Some i => m ← ms !! i; Some (if decide (N.of_nat (m_id m) = 2 ^ 64 - 1)%N then None else Some (m_id m)) end;
                    from ← only_ways ms from;
                    to ← only_ways ms to;
                    if decide (to = []) then Some []
                    else if decide (from = []) then Some []
                    else if decide (is_mandatory = true /\ length to <> 1) then Some []
                    else if decide (is_mandatory = true /\ length from <> 1) then Some []
                    else
                      for_each from (fun i out =>
                        f ← ms !! i;
                        for_each to (fun j out => t ← ms !! j; Some (out ++ [mkRestr relation is_mandatory direction (m_id f) via_node (m_id t)])%list) out) []
                  end
              end
          end
      end
  end.
