(** C51-C53: what the tags of ways and relations mean. *)
From Coq Require Import Ascii String.
From Verif Require Import Base TagMapModel OsmGraphModel OsmProfileModel OsmProfileSpec OsmProfileProofs OsmDecodeProofs.
Ltac Zify.zify_post_hook ::= idtac.

Lemma get_spec tags key v : get tags key = Some v <-> value_of tags key v.
Proof.
  unfold get, value_of. change (str key) with (bytes key). induction tags as [|[k w] tags IH]; cbn [find].
  - split; [done|]. by intros (i & Hi & _).
  - cbn [fst]. case_bool_decide as Hk; cbn.
    + subst k. split.
      * intros [= ->]. exists 0. split; [done|]. intros j ? ?. lia.
      * intros ([|i] & Hi & H); [cbn in Hi; congruence|]. exfalso. by apply (H 0 w ltac:(lia)).
    + rewrite IH. split.
      * intros (i & Hi & H). exists (S i). split; [done|]. intros [|j] x Hj; [cbn; congruence|]. apply H. lia.
      * intros ([|i] & Hi & H); [cbn in Hi; congruence|]. exists i. split; [done|]. intros j x Hj. apply (H (S j)). lia.
Qed.
Lemma get_none tags key : get tags key = None <-> no_tag tags key.
Proof.
  unfold no_tag. split.
  - intros H v Hv. apply elem_of_list_In in Hv. unfold get in H. apply fmap_None in H. eapply find_none in H; [|exact Hv]. cbn in H. by rewrite bool_decide_eq_true_2 in H.
  - intros H. destruct (get tags key) as [v|] eqn:E; [|done]. apply get_spec in E as (i & Hi & _). apply elem_of_list_lookup_2 in Hi. by apply H in Hi.
Qed.
Lemma value_fun tags key v w : value_of tags key v -> value_of tags key w -> v = w.
Proof. rewrite <- !get_spec. congruence. Qed.

(** ** C51 Speed limits *)

(** Every way has a speed, which is at least 1 km/h and less than the value for infinity. *)
Theorem C51_speed_range : forall garbage tags, length garbage = 1024 -> (forall v, value_of tags "maxspeed" v -> 0%N ∉ v) ->
  exists v, get_osm_way_speed garbage tags = Some v /\ (1 <= v < 2 ^ 31 - 1)%N.
Proof.
  intros garbage tags Hg Hz. apply speed_defined; [done|]. intros v Hv%get_spec. apply Hz in Hv. apply Forall_forall. intros x Hx ->. done.
Qed.
Print Assumptions C51_speed_range.

(** No posted number is exceeded (apart from 0, which means 1 km/h), whatever the other values are and however large the
    numbers are. Partial: the tag has at most 1022 bytes. *)
Theorem C51_never_faster_partial : forall garbage tags m s n, length garbage = 1024 -> value_of tags "maxspeed" m -> 0%N ∉ m ->
  length m <= 1022 -> s ∈ values (map lower m) -> posted s n ->
  exists v, get_osm_way_speed garbage tags = Some v /\ (v <= N.max 1 n)%N.
Proof.
  intros garbage tags m s n Hg Hm Hz Hl Hs Hn. apply get_spec in Hm.
  assert (m <> str "unposted") as Hu.
  { intros ->. apply elem_of_list_singleton in Hs as ->. destruct Hn as (ds & u & (k & E & Hne & Hd) & _). destruct ds as [|c ds]; [done|]. apply Forall_cons in Hd as [Hc _]. injection E as <- _. cbv in Hc. by destruct Hc as [_ []]. }
  rewrite (speed_spec garbage tags m Hg Hm Hu) by (apply Forall_forall; intros x Hx ->; done). rewrite take_ge by lia. eexists. split; [done|]. cbv zeta.
  assert (minimum inf_weight (map parse_maxspeed_value (values (map lower m))) <= n)%N as Hmin.
  { etrans; [|by apply (parse_posted s)]. apply minimum_elem. apply elem_of_list_In, in_map, elem_of_list_In, Hs. }
  case_decide as Hd; [|lia]. rewrite Hd in Hmin. pose proof (default_speed_range tags). lia.
Qed.
Print Assumptions C51_never_faster_partial.

(** If all values are numbers below 1000000 with a known unit, then the speed is the smallest of them. *)
Theorem C51_smallest_partial : forall garbage tags m ns, length garbage = 1024 -> value_of tags "maxspeed" m -> 0%N ∉ m -> length m <= 1022 ->
  Forall2 posted (values (map lower m)) ns -> (forall n, n ∈ ns -> n < 1000000)%N ->
  get_osm_way_speed garbage tags = Some (N.max 1 (minimum (2 ^ 31 - 1) ns)).
Proof.
  intros garbage tags m ns Hg Hm Hz Hl Hs Hn. apply get_spec in Hm.
  assert (m <> str "unposted") as Hu.
  { intros ->. apply Forall2_cons_inv_l in Hs as (n & ? & (ds & u & (k & E & Hne & Hd) & _) & _). destruct ds as [|c ds]; [done|]. apply Forall_cons in Hd as [Hc _]. injection E as <- _. cbv in Hc. by destruct Hc as [_ []]. }
  rewrite (speed_spec garbage tags m Hg Hm Hu) by (apply Forall_forall; intros x Hx ->; done). rewrite take_ge by lia. cbv zeta.
  assert (map parse_maxspeed_value (values (map lower m)) = ns) as ->.
  { clear -Hs Hn. induction Hs as [|s n vs ns Hsn Hs IH]; [done|]. cbn. rewrite IH by (intros x Hx; apply Hn; by right). f_equal. apply parse_posted_small; [done|]. apply Hn. by left. }
  destruct ns as [|n ns]; [exfalso; apply Forall2_length in Hs; unfold values in Hs; rewrite map_length in Hs; destruct (fields_cons (map lower m)) as (f & r & E & _); by rewrite E in Hs|].
  pose proof (Hn n (elem_of_list_here _ _)) as H1. pose proof (minimum_elem inf_weight (n :: ns) n (elem_of_list_here _ _)) as H2. change (2 ^ 31 - 1)%N with inf_weight.
  rewrite decide_False; [done|]. change inf_weight with 2147483647%N in *. lia.
Qed.
Print Assumptions C51_smallest_partial.

(** Without a limit the speed is that of the kind of road. *)
Theorem C51_no_limit : forall garbage tags, no_tag tags "maxspeed" \/ tag_is tags "maxspeed" "unposted" -> get_osm_way_speed garbage tags = Some (default_speed tags).
Proof. intros garbage tags [H|H]; unfold get_osm_way_speed; [apply get_none in H|apply get_spec in H]; by rewrite H. Qed.
Print Assumptions C51_no_limit.

Definition speed_of (tags : list (string * string)) : option N := get_osm_way_speed (replicate 1024 7%N) (map (fun kv => (bytes kv.1, bytes kv.2)) tags).
Arguments speed_of tags%list_scope.
Local Open Scope string_scope.
Example speed_examples :
  speed_of [("highway", "primary"); ("maxspeed", "80; 50 mph;60 km/h")] = Some 60%N /\ speed_of [("maxspeed", "RO:urban"); ("highway", "primary")] = Some 40%N /\
  speed_of [("highway", "primary"); ("maxspeed", "0")] = Some 1%N /\ speed_of [("highway", "primary"); ("maxspeed", "signals")] = Some 65%N /\
  speed_of [("highway", "primary"); ("maxspeed", "unposted")] = Some 65%N /\ speed_of [("highway", "primary"); ("maxspeed", "30 knots")] = Some 55%N.
Proof. by vm_compute. Qed.
Example smallest_example : let m := bytes "80; 50 mph;60 km/h" in
  exists ns, Forall2 posted (values (map lower m)) ns /\ (forall n, n ∈ ns -> n < 1000000)%N /\ minimum (2 ^ 31 - 1) ns = 60%N.
Proof.
  exists [80; 80; 60]%N. split; [|split; [|done]].
  - assert (values (map lower (bytes "80; 50 mph;60 km/h")) = [bytes "80"; bytes "50 mph"; bytes "60 km/h"]) as -> by (by vm_compute).
    assert (forall c, bool_decide (48 <= c <= 57)%N = true -> digit c) as Hd by (intros c H; by apply bool_decide_eq_true in H).
    repeat constructor.
    + exists (bytes "80"), []. split; [exists 0; split_and!; [done|done|by repeat (constructor; [by apply Hd|])]|]. left. split; [by left|done].
    + exists (bytes "50"), (bytes "mph"). split; [exists 1; split_and!; [done|done|by repeat (constructor; [by apply Hd|])]|]. right; left. done.
    + exists (bytes "60"), (bytes "km/h"). split; [exists 1; split_and!; [done|done|by repeat (constructor; [by apply Hd|])]|]. left. split; [right; by left|done].
  - intros n Hn. repeat (apply elem_of_cons in Hn as [-> |Hn]; [done|]). by apply elem_of_nil in Hn.
Qed.

(** The tag is cut after 1022 bytes: a limit of 5 km/h behind that is not respected. *)
Theorem C51_never_faster_refuted : exists garbage tags m s n, length garbage = 1024 /\ value_of tags "maxspeed" m /\ 0%N ∉ m /\ s ∈ values (map lower m) /\ posted s n /\
  exists v, get_osm_way_speed garbage tags = Some v /\ ~ (v <= N.max 1 n)%N.
Proof.
  set (m := (bytes "100" ++ replicate 1018 32%N ++ bytes ";5")%list). exists (replicate 1024 0%N), [(bytes "maxspeed", m)], m, (bytes "5"), 5%N. split; [done|]. split; [|split; [|split; [|split]]].
  - exists 0. split; [done|]. intros j w Hj. lia.
  - intros H%elem_of_list_In. assert (existsb (N.eqb 0) m = true) as E; [|by vm_compute in E]. apply existsb_exists. by exists 0%N.
  - apply elem_of_list_lookup. exists 1. by vm_compute.
  - exists (bytes "5"), []. split; [|left; split; [by left|done]]. exists 0. split_and!; [done|done|]. repeat constructor; done.
  - exists 100%N. split; [by vm_compute|]. intros H. by apply H.
Qed.
Print Assumptions C51_never_faster_refuted.
(** Numbers are taken modulo 2^32, and a limit with a fraction loses its unit: 4294967297 km/h becomes 1 km/h and 12.5 mph becomes 12 km/h. *)
Theorem C51_smallest_refuted : speed_of [("highway", "motorway"); ("maxspeed", "4294967297")] = Some 1%N /\ posted (bytes "4294967297") 4294967297 /\ speed_of [("highway", "motorway"); ("maxspeed", "12.5 mph")] = Some 12%N.
Proof.
  split; [by vm_compute|]. split; [|by vm_compute]. exists (bytes "4294967297"), []. split; [|left; split; [by left|by vm_compute]]. exists 0. split_and!; [done|done|]. repeat constructor; done.
Qed.
Print Assumptions C51_smallest_refuted.
(** A question mark in the data matches everything: seven of them are read as walking pace. *)
Theorem C51_wildcard_refuted : speed_of [("highway", "motorway"); ("maxspeed", "???????")] = Some 5%N /\ (forall n, ~ posted (bytes "???????") n).
Proof. split; [by vm_compute|]. intros n (ds & u & (k & E & Hne & Hd) & _). destruct ds as [|c ds]; [done|]. apply Forall_cons in Hd as [Hc _]. injection E as <- _. cbv in Hc. by destruct Hc as [_ []]. Qed.
Print Assumptions C51_wildcard_refuted.

(** ** C52 Access and direction *)

(** What the functions say depends only on the values of the tags, not on their order or on tags that are hidden. *)
Lemma same_get tags tags' : same_values tags tags' -> forall key, get tags key = get tags' key.
Proof.
  intros H key. destruct (get tags key) as [v|] eqn:E.
  - apply get_spec, H, get_spec in E. done.
  - destruct (get tags' key) as [v|] eqn:E'; [|done]. apply get_spec, H, get_spec in E'. congruence.
Qed.
Theorem C52_only_values : forall tags tags', same_values tags tags' ->
  is_osm_way_used_by_cars tags = is_osm_way_used_by_cars tags' /\ is_osm_way_used_by_bicycles tags = is_osm_way_used_by_bicycles tags' /\ is_osm_way_used_by_pedestrians tags = is_osm_way_used_by_pedestrians tags' /\
  get_osm_car_direction_category tags = get_osm_car_direction_category tags' /\ get_osm_bicycle_direction_category tags = get_osm_bicycle_direction_category tags' /\
  (forall garbage, get_osm_way_speed garbage tags = get_osm_way_speed garbage tags') /\ get_osm_way_name tags = get_osm_way_name tags' /\ get_osm_way_bicycle_comfort_level tags = get_osm_way_bicycle_comfort_level tags' /\
  (forall id ms, decode_osm_car_turn_restrictions id ms tags = decode_osm_car_turn_restrictions id ms tags').
Proof.
  intros tags tags' H. pose proof (same_get _ _ H) as Hg.
  assert (forall key, has_tag tags key = has_tag tags' key) as Hh by (intros key; unfold has_tag; by rewrite Hg).
  assert (forall key l, tag_in tags key l = tag_in tags' key l) as Ht by (intros key l; unfold tag_in; by rewrite Hg).
  split_and!; [| | | | |intros garbage| | |intros id ms].
  - unfold is_osm_way_used_by_cars. by rewrite !Hh, !Ht, !Hg.
  - unfold is_osm_way_used_by_bicycles. by rewrite !Hh, !Ht, !Hg.
  - unfold is_osm_way_used_by_pedestrians. by rewrite !Hh, !Ht, !Hg.
  - unfold get_osm_car_direction_category. by rewrite !Ht, !Hg.
  - unfold get_osm_bicycle_direction_category. by rewrite !Hh, !Ht, !Hg.
  - unfold get_osm_way_speed, default_speed. by rewrite !Hh, !Ht, !Hg.
  - unfold get_osm_way_name. by rewrite !Hg.
  - unfold get_osm_way_bicycle_comfort_level. by rewrite !Hh, !Ht.
  - unfold decode_osm_car_turn_restrictions. by rewrite !Hg.
Qed.
Print Assumptions C52_only_values.

Lemma str_in_spec s l : str_in s l = true <-> exists x, x ∈ l /\ s = bytes x.
Proof. unfold str_in. rewrite existsb_exists. split; intros (x & Hx & H); exists x; (split; [by apply elem_of_list_In|]); [by apply bool_decide_eq_true in H|by apply bool_decide_eq_true_2]. Qed.
Lemma tag_in_spec tags key l : tag_in tags key l = true <-> tag_one_of tags key l.
Proof.
  unfold tag_in, tag_one_of, tag_is. setoid_rewrite <- get_spec. destruct (get tags key) as [v|]; [|split; [done|by intros (? & _ & ?)]]. rewrite str_in_spec. split; intros (x & Hx & H); exists x; (split; [done|]); congruence.
Qed.
Lemma has_tag_spec tags key : has_tag tags key = true <-> exists v, value_of tags key v.
Proof. unfold has_tag. rewrite bool_decide_eq_true. setoid_rewrite <- get_spec. done. Qed.

Lemma bytes_inj x y : bytes x = bytes y -> x = y.
Proof.
  intros H. rewrite <- (string_of_list_ascii_of_string x), <- (string_of_list_ascii_of_string y). f_equal. revert H. unfold bytes.
  generalize (list_ascii_of_string x) (list_ascii_of_string y). induction l as [|a l IH]; intros [|b l'] H; try done. cbn [map] in H. injection H as Hab H. f_equal; [|by apply IH].
  rewrite <- (ascii_N_embedding a), <- (ascii_N_embedding b). by f_equal.
Qed.
Lemma disjoint_str h l l' : forallb (fun x => negb (existsb (String.eqb x) l')) l = true -> str_in h l = true -> str_in h l' = false.
Proof.
  intros Hf (x & Hx & Ex)%str_in_spec. apply not_true_is_false. intros (y & Hy & Ey)%str_in_spec. subst h. apply bytes_inj in Ey as <-. rewrite forallb_forall in Hf. apply elem_of_list_In, Hf, negb_true_iff, not_true_iff_false in Hx. apply Hx. apply existsb_exists. exists x. split; [by apply elem_of_list_In|by apply String.eqb_eq].
Qed.

(** A car uses a way that is neither a junction nor a ferry only if it is a road, nothing closes it for cars and access to it is free. *)
Theorem C52_car_access_partial : forall tags, is_osm_way_used_by_cars tags = true -> ~ not_by_road tags ->
  (exists h, value_of tags "highway" h) /\ ~ tag_is tags "motorcar" "no" /\ ~ tag_is tags "motor_vehicle" "no" /\
  (no_tag tags "access" \/ tag_one_of tags "access" car_access_values) /\ ~ tag_one_of tags "highway" no_car_ways /\ ~ (tag_is tags "highway" "bicycle_road" /\ ~ tag_is tags "motorcar" "yes").
Proof.
  intros tags Hu Hn. unfold is_osm_way_used_by_cars in Hu.
  destruct (has_tag tags "junction") eqn:E1; [exfalso; apply Hn; left; by apply has_tag_spec|].
  destruct (tag_in tags "route" _) eqn:E2; [exfalso; apply Hn; right; left; apply tag_in_spec in E2 as (x & ->%elem_of_list_singleton & H); done|].
  destruct (tag_in tags "ferry" _) eqn:E3; [exfalso; apply Hn; right; right; apply tag_in_spec in E3 as (x & ->%elem_of_list_singleton & H); by eexists|].
  destruct (get tags "highway") as [h|] eqn:Eh; [|done].
  destruct (tag_in tags "motorcar" ["no"]) eqn:E4; [done|]. destruct (tag_in tags "motor_vehicle" ["no"]) eqn:E5; [done|].
  destruct (has_tag tags "access" && negb _) eqn:E6; [done|].
  assert (forall key x, tag_in tags key [x] = false -> ~ tag_is tags key x) as Hone. { intros key x E H. apply not_true_iff_false in E. apply E, tag_in_spec. exists x. split; [by left|done]. }
  assert (forall l, tag_one_of tags "highway" l <-> str_in h l = true) as Hhw. { intros l. rewrite <- tag_in_spec. unfold tag_in. by rewrite Eh. }
  split; [exists h; by apply get_spec|]. split; [by apply Hone|]. split; [by apply Hone|]. split.
  { apply andb_false_iff in E6 as [E6|E6].
    - left. apply get_none. unfold has_tag in E6. apply bool_decide_eq_false in E6. destruct (get tags "access"); [|done]. exfalso. by apply E6.
    - right. apply tag_in_spec. by apply negb_false_iff in E6. }
  match type of Hu with (if str_in h ?l then _ else _) = _ => set (roads := l) in * end.
  assert (forall x, str_in h [x] = true <-> tag_is tags "highway" x) as Hx.
  { intros x. rewrite <- Hhw. split; [by intros (? & ->%elem_of_list_singleton & ?)|]. intros H. exists x. split; [by left|done]. }
  rewrite Hhw, <- Hx. destruct (str_in h roads) eqn:E7.
  - rewrite (disjoint_str h roads no_car_ways), (disjoint_str h roads ["bicycle_road"]) by done. split; [done|]. by intros [? _].
  - destruct (str_in h ["bicycle_road"]) eqn:E8.
    + rewrite (disjoint_str h ["bicycle_road"] no_car_ways) by done. split; [done|]. intros [_ H]. apply H. by apply tag_in_spec in Hu as (x & ->%elem_of_list_singleton & ?).
    + change ((if str_in h no_car_ways then false else if tag_in tags "oneway" ["reversible"; "alternating"] then false else if has_tag tags "maxspeed" then true else false) = true) in Hu.
      destruct (str_in h no_car_ways); [done|]. split; [done|]. by intros [? _].
Qed.
Print Assumptions C52_car_access_partial.

(** A road on which nothing forbids cars is used. *)
Theorem C52_car_roads : forall tags, tag_one_of tags "highway" car_roads -> ~ tag_is tags "motorcar" "no" -> ~ tag_is tags "motor_vehicle" "no" -> (no_tag tags "access" \/ tag_one_of tags "access" car_access_values) ->
  is_osm_way_used_by_cars tags = true.
Proof.
  intros tags (x & Hx & Ex) Hc Hv Ha. apply get_spec in Ex. unfold is_osm_way_used_by_cars. rewrite Ex.
  destruct (has_tag tags "junction"); [done|]. destruct (tag_in tags "route" _); [done|]. destruct (tag_in tags "ferry" _); [done|].
  assert (forall key x, ~ tag_is tags key x -> tag_in tags key [x] = false) as Hone. { intros key y H. apply not_true_is_false. intros (? & ->%elem_of_list_singleton & H')%tag_in_spec. done. }
  rewrite (Hone _ _ Hc), (Hone _ _ Hv). clear Hone Hc Hv.
  assert (has_tag tags "access" && negb (tag_in tags "access" ["yes"; "permissive"; "delivery"; "designated"; "destination"]) = false) as ->.
  { apply andb_false_iff. destruct Ha as [Ha|Ha]; [left|right; apply tag_in_spec in Ha; by apply negb_false_iff]. apply get_none in Ha. unfold has_tag. apply bool_decide_eq_false. rewrite Ha. by intros []. }
  match goal with |- (if str_in _ ?l then _ else _) = _ => set (roads := l) end.
  assert (forallb (fun x => existsb (String.eqb x) roads) car_roads = true) as Hf by (by vm_compute). rewrite forallb_forall in Hf. apply elem_of_list_In, Hf, existsb_exists in Hx as (y & Hy & ->%String.eqb_eq).
  assert (str_in (bytes y) roads = true) as ->; [|done]. apply str_in_spec. exists y. split; [by apply elem_of_list_In|done].
Qed.
Print Assumptions C52_car_roads.

(** The directions in which cars use a way. *)
Theorem C52_car_direction_partial : forall tags,
  (get_osm_car_direction_category tags = OnlyBackwards <-> tag_one_of tags "oneway" backward_values) /\
  (get_osm_car_direction_category tags = OnlyForwards <-> tag_one_of tags "oneway" forward_values \/ no_tag tags "oneway" /\ (tag_is tags "junction" "roundabout" \/ tag_one_of tags "highway" ["motorway"; "motorway_link"])) /\
  (get_osm_car_direction_category tags = Closed <-> tag_one_of tags "oneway" changing_values).
Proof.
  intros tags. assert (forall key x, tag_in tags key [x] = true <-> tag_is tags key x) as Hone. { intros key x. rewrite tag_in_spec. split; [by intros (? & ->%elem_of_list_singleton & ?)|]. intros H. exists x. split; [by left|done]. }
  rewrite <- !tag_in_spec, <- !Hone, <- get_none. unfold get_osm_car_direction_category.
  destruct (get tags "oneway") as [o|] eqn:Eo.
  - assert (forall l, tag_in tags "oneway" l = str_in o l) as -> by (intros l; unfold tag_in; by rewrite Eo).
    assert (forall l, tag_in tags "oneway" l = str_in o l) as Ht by (intros l; unfold tag_in; by rewrite Eo). rewrite !Ht.
    change ["-1"; "reverse"; "backward"] with backward_values. change ["yes"; "true"; "1"] with forward_values. change ["no"; "false"; "0"] with both_values. change ["reversible"; "alternating"] with changing_values.
    destruct (str_in o backward_values) eqn:E1.
    { rewrite (disjoint_str o backward_values forward_values), (disjoint_str o backward_values changing_values) by done. naive_solver. }
    destruct (str_in o forward_values) eqn:E2; [rewrite (disjoint_str o forward_values changing_values) by done; naive_solver|].
    destruct (str_in o both_values) eqn:E3; [rewrite (disjoint_str o both_values changing_values) by done; naive_solver|].
    destruct (str_in o changing_values); naive_solver.
  - assert (forall l, tag_in tags "oneway" l = false) as Ht by (intros l; unfold tag_in; by rewrite Eo). rewrite !Ht.
    destruct (tag_in tags "junction" _); [naive_solver|]. destruct (tag_in tags "highway" _); naive_solver.
Qed.
Print Assumptions C52_car_direction_partial.

(** The directions for bicycles are those of cars if the tag says so and no tag speaks about bicycles. *)
Theorem C52_bicycle_direction_partial : forall tags, no_tag tags "oneway:bicycle" -> no_tag tags "cycleway" -> no_tag tags "cycleway:both" -> no_tag tags "cycleway:left" ->
  tag_one_of tags "oneway" (forward_values ++ backward_values ++ both_values ++ changing_values)%list -> get_osm_bicycle_direction_category tags = get_osm_car_direction_category tags.
Proof.
  intros tags H1%get_none H2%get_none H3%get_none H4%get_none (x & Hx & Eo). apply get_spec in Eo. unfold get_osm_bicycle_direction_category, get_osm_car_direction_category, tag_in, has_tag. rewrite H1, H2, H3, H4, Eo.
  clear -Hx. unfold forward_values, backward_values, both_values, changing_values in Hx. cbn [app] in Hx. repeat (apply elem_of_cons in Hx as [-> |Hx]; [by vm_compute|]). by apply elem_of_nil in Hx.
Qed.
Print Assumptions C52_bicycle_direction_partial.

(** Bicycles and pedestrians use a way that is neither a junction nor a ferry (nor a stop) only if access to it is free and it is not forbidden for them; motorways and the like
    are used by bicycles only with a cycleway, by pedestrians never. *)
Theorem C52_bicycle_access_partial : forall tags, is_osm_way_used_by_bicycles tags = true -> ~ not_by_road tags ->
  (exists h, value_of tags "highway" h) /\ ~ tag_one_of tags "bicycle" ["no"; "use_sidepath"] /\ (no_tag tags "access" \/ tag_one_of tags "access" free_access_values) /\
  (tag_one_of tags "highway" motor_ways -> ~ tag_is tags "highway" "proposed" /\ exists key v, key ∈ ["cycleway"; "cycleway:left"; "cycleway:right"; "cycleway:both"] /\ value_of tags key v).
Proof.
  intros tags Hu Hn. unfold is_osm_way_used_by_bicycles in Hu.
  destruct (has_tag tags "junction") eqn:E1; [exfalso; apply Hn; left; by apply has_tag_spec|].
  destruct (tag_in tags "route" _) eqn:E2; [exfalso; apply Hn; right; left; apply tag_in_spec in E2 as (x & ->%elem_of_list_singleton & H); done|].
  destruct (tag_in tags "ferry" _) eqn:E3; [exfalso; apply Hn; right; right; apply tag_in_spec in E3 as (x & ->%elem_of_list_singleton & H); by eexists|].
  destruct (get tags "highway") as [h|] eqn:Eh; [|done]. destruct (str_in h ["proposed"]) eqn:E4; [done|].
  destruct (has_tag tags "access" && negb _) eqn:E5; [done|]. destruct (tag_in tags "bicycle" _) eqn:E6; [done|].
  assert (forall l, tag_one_of tags "highway" l <-> str_in h l = true) as Hhw. { intros l. rewrite <- tag_in_spec. unfold tag_in. by rewrite Eh. }
  split; [exists h; by apply get_spec|]. split; [rewrite <- tag_in_spec; by rewrite E6|]. split.
  { apply andb_false_iff in E5 as [E5|E5].
    - left. apply get_none. unfold has_tag in E5. apply bool_decide_eq_false in E5. destruct (get tags "access"); [|done]. exfalso. by apply E5.
    - right. apply tag_in_spec. by apply negb_false_iff in E5. }
  rewrite Hhw. intros Hm. split.
  { intros H. assert (str_in h ["proposed"] = true) as H' by (apply Hhw; exists "proposed"; split; [by left|done]). congruence. }
  destruct (has_tag tags "cycleway") eqn:F1; [apply has_tag_spec in F1 as [v Hv]; exists "cycleway", v; split; [by repeat constructor|done]|].
  destruct (has_tag tags "cycleway:left") eqn:F2; [apply has_tag_spec in F2 as [v Hv]; exists "cycleway:left", v; split; [by repeat constructor|done]|].
  destruct (has_tag tags "cycleway:right") eqn:F3; [apply has_tag_spec in F3 as [v Hv]; exists "cycleway:right", v; split; [by repeat constructor|done]|].
  destruct (has_tag tags "cycleway:both") eqn:F4; [apply has_tag_spec in F4 as [v Hv]; exists "cycleway:both", v; split; [by repeat constructor|done]|].
  rewrite (disjoint_str h motor_ways) in Hu by done. match type of Hu with context [str_in h ?l] => by destruct (str_in h l) end.
Qed.
Print Assumptions C52_bicycle_access_partial.
Theorem C52_pedestrian_access_partial : forall tags, is_osm_way_used_by_pedestrians tags = true -> ~ not_by_road tags -> ~ stop tags ->
  (exists h, value_of tags "highway" h) /\ ~ tag_is tags "crossing" "no" /\ (no_tag tags "access" \/ tag_one_of tags "access" free_access_values) /\ ~ tag_one_of tags "highway" motor_ways.
Proof.
  intros tags Hu Hn Hs. unfold is_osm_way_used_by_pedestrians in Hu.
  destruct (has_tag tags "junction") eqn:E1; [exfalso; apply Hn; left; by apply has_tag_spec|].
  destruct (tag_in tags "route" _) eqn:E2; [exfalso; apply Hn; right; left; apply tag_in_spec in E2 as (x & ->%elem_of_list_singleton & H); done|].
  destruct (tag_in tags "ferry" _) eqn:E3; [exfalso; apply Hn; right; right; apply tag_in_spec in E3 as (x & ->%elem_of_list_singleton & H); by eexists|].
  destruct (tag_in tags "public_transport" _) eqn:E4; [exfalso; apply Hs; left; by apply tag_in_spec|]. destruct (tag_in tags "railway" _) eqn:E5; [exfalso; apply Hs; right; by apply tag_in_spec|].
  destruct (get tags "highway") as [h|] eqn:Eh; [|done]. destruct (has_tag tags "access" && negb _) eqn:E6; [done|]. destruct (tag_in tags "crossing" _) eqn:E7; [done|].
  split; [exists h; by apply get_spec|]. split; [intros H; apply not_true_iff_false in E7; apply E7, tag_in_spec; exists "no"; split; [by left|done]|]. split.
  { apply andb_false_iff in E6 as [E6|E6].
    - left. apply get_none. unfold has_tag in E6. apply bool_decide_eq_false in E6. destruct (get tags "access"); [|done]. exfalso. by apply E6.
    - right. apply tag_in_spec. by apply negb_false_iff in E6. }
  rewrite <- tag_in_spec. unfold tag_in. rewrite Eh. intros Hm. rewrite (disjoint_str h motor_ways) in Hu by done. match type of Hu with context [str_in h ?l] => by destruct (str_in h l) end.
Qed.
Print Assumptions C52_pedestrian_access_partial.

(** Levels of comfort are in their range. *)
Theorem C52_comfort_range : forall tags, (get_min_bicycle_comfort_level <= get_osm_way_bicycle_comfort_level tags <= get_max_bicycle_comfort_level)%N.
Proof. intros tags. unfold get_osm_way_bicycle_comfort_level, get_min_bicycle_comfort_level, get_max_bicycle_comfort_level. repeat case_match; done. Qed.
Print Assumptions C52_comfort_range.

Definition tagged (l : list (string * string)) : tag_list := map (fun kv => (bytes kv.1, bytes kv.2)) l.
Arguments tagged l%list_scope.
Lemma tagged_is l key v : get (tagged l) key = Some (bytes v) -> tag_is (tagged l) key v.
Proof. intros H. by apply get_spec in H. Qed.
Lemma tagged_not l key v : bool_decide (get (tagged l) key = Some (bytes v)) = false -> ~ tag_is (tagged l) key v.
Proof. intros H H'. apply get_spec in H'. by apply bool_decide_eq_false in H. Qed.
Example access_example : let tags := tagged [("name", "x"); ("access", "destination"); ("highway", "residential"); ("oneway", "-1"); ("highway", "path")] in
  tag_one_of tags "highway" car_roads /\ ~ tag_is tags "motorcar" "no" /\ ~ tag_is tags "motor_vehicle" "no" /\ tag_one_of tags "access" car_access_values /\ ~ not_by_road tags /\
  no_tag tags "oneway:bicycle" /\ no_tag tags "cycleway" /\ no_tag tags "cycleway:both" /\ no_tag tags "cycleway:left" /\ tag_one_of tags "oneway" backward_values /\
  is_osm_way_used_by_cars tags = true /\ get_osm_car_direction_category tags = OnlyBackwards /\ get_osm_bicycle_direction_category tags = OnlyBackwards.
Proof.
  cbv zeta. split; [exists "residential"; split; [by repeat constructor|by apply tagged_is]|]. split; [by apply tagged_not|]. split; [by apply tagged_not|].
  split; [exists "destination"; split; [by repeat constructor|by apply tagged_is]|]. split.
  { intros [[v H]|[H|[v H]]]; apply get_spec in H; by vm_compute in H. }
  split_and!; try (by apply get_none); try (by vm_compute). exists "-1". split; [by repeat constructor|by apply tagged_is].
Qed.

Example access_example_bicycle : let tags := tagged [("access", "forestry"); ("highway", "trunk"); ("cycleway:left", "lane")] in
  is_osm_way_used_by_bicycles tags = true /\ ~ not_by_road tags /\ tag_one_of tags "highway" motor_ways.
Proof. cbv zeta. split; [done|]. split; [intros [[v H]|[H|[v H]]]; apply get_spec in H; by vm_compute in H|]. exists "trunk". split; [by repeat constructor|by apply tagged_is]. Qed.
Example access_example_pedestrian : let tags := tagged [("access", "public"); ("highway", "footway"); ("railway", "rail")] in
  is_osm_way_used_by_pedestrians tags = true /\ ~ not_by_road tags /\ ~ stop tags.
Proof. cbv zeta. split; [done|]. split; [intros [[v H]|[H|[v H]]]; apply get_spec in H; by vm_compute in H|]. by intros [H|H]; apply tag_in_spec in H. Qed.

(** A junction is used by cars even if all motor vehicles are forbidden. *)
Theorem C52_car_access_refuted : exists tags, is_osm_way_used_by_cars tags = true /\ tag_is tags "motor_vehicle" "no" /\ tag_is tags "access" "no" /\ tag_is tags "highway" "footway".
Proof. exists (tagged [("junction", "yes"); ("highway", "footway"); ("access", "no"); ("motor_vehicle", "no")]). split_and!; [done|by apply tagged_is..]. Qed.
Print Assumptions C52_car_access_refuted.
(** A way with an unknown value for oneway is open in both directions for cars; the message says that it is closed, and it is closed for bicycles. *)
Theorem C52_car_direction_refuted : exists tags, tag_is tags "oneway" "unknown" /\ get_osm_car_direction_category tags = OpenBoth /\ get_osm_bicycle_direction_category tags = Closed.
Proof. exists (tagged [("oneway", "unknown")]). split_and!; [by apply tagged_is|done..]. Qed.
Print Assumptions C52_car_direction_refuted.
(** A roundabout without the tag oneway is one-way for cars but not for bicycles. *)
Theorem C52_bicycle_direction_refuted : exists tags, tag_is tags "junction" "roundabout" /\ no_tag tags "oneway:bicycle" /\ no_tag tags "cycleway" /\
  is_osm_way_used_by_bicycles tags = true /\ get_osm_car_direction_category tags = OnlyForwards /\ get_osm_bicycle_direction_category tags = OpenBoth.
Proof. exists (tagged [("highway", "primary"); ("junction", "roundabout")]). split_and!; [by apply tagged_is|by apply get_none|by apply get_none|done..]. Qed.
Print Assumptions C52_bicycle_direction_refuted.
(** Two kinds of roads that cars use have no speed of their own, so they get 50 km/h. *)
Theorem C52_known_speed_refuted : exists tags tags', tag_is tags "highway" "motorway_junction" /\ tag_is tags' "highway" "bicycle_road" /\
  is_osm_way_used_by_cars tags = true /\ is_osm_way_used_by_cars tags' = true /\ (forall garbage, get_osm_way_speed garbage tags = Some 50%N /\ get_osm_way_speed garbage tags' = Some 50%N) /\
  highway_speed (bytes "motorway_junction") = None /\ highway_speed (bytes "bicycle_road") = None.
Proof. exists (tagged [("highway", "motorway_junction")]), (tagged [("highway", "bicycle_road"); ("motorcar", "yes")]). split_and!; [by apply tagged_is|by apply tagged_is|done..]. Qed.
Print Assumptions C52_known_speed_refuted.

(** ** C53 Restrictions *)

(** The restrictions read from a relation are exactly those that it describes. *)
Theorem C53_restrictions : forall relation ms tags, (forall m, m ∈ ms -> N.of_nat (m_id m) < 2 ^ 64 - 1)%N ->
  exists rs, decode_osm_car_turn_restrictions relation ms tags = Some rs /\
    forall r, r ∈ rs <-> exists value, value_of tags "restriction" value /\ describes relation ms (Some value) r.
Proof.
  intros relation ms tags H. destruct (decode_spec relation ms tags) as (rs & E & _ & Hrs); [by apply Forall_forall|]. exists rs. split; [done|]. intros r. rewrite Hrs. setoid_rewrite <- get_spec.
  destruct (get tags "restriction") as [value|]; [split; [intros Hd; by exists value|by intros (? & [= <-] & ?)]|]. split; [by intros [? _]|by intros (? & ? & _)].
Qed.
Print Assumptions C53_restrictions.

(** A mandatory restriction has one way on each side, so at most one restriction is read. *)
Theorem C53_mandatory_one : forall relation ms tags rs r, decode_osm_car_turn_restrictions relation ms tags = Some rs -> r ∈ rs -> mandatory r = true -> (forall m, m ∈ ms -> N.of_nat (m_id m) < 2 ^ 64 - 1)%N -> rs = [r].
Proof.
  intros relation ms tags rs r E Hr Hm Hid. destruct (decode_spec relation ms tags) as (rs' & E' & Hl & Hrs); [by apply Forall_forall|]. assert (rs' = rs) as -> by congruence.
  pose proof Hr as Hd. apply Hrs in Hd as (_ & _ & _ & _ & _ & Hd). apply Hd in Hm as [H1 H2]. rewrite H1, H2 in Hl. destruct rs as [|x [|y rs]]; [by apply elem_of_nil in Hr|by apply elem_of_list_singleton in Hr as ->|cbn in Hl; lia].
Qed.
Print Assumptions C53_mandatory_one.

(** A relation with two ways from which one must not turn left into a third one, and one with a via way. *)
Example restriction_example :
  let from1 := mkMember TWay 5 (bytes "from") in let from2 := mkMember TWay 6 (bytes "from") in let to := mkMember TWay 7 (bytes "to") in let via := mkMember TNode 8 (bytes "via") in
  let odd := mkMember TNode 9 (bytes "from") in
  decode_osm_car_turn_restrictions 1 [from1; odd; via; to; from2] (tagged [("type", "restriction"); ("restriction", "no_left_turn")]) = Some [mkRestr 1 false LeftTurn 5 (Some 8) 7; mkRestr 1 false LeftTurn 6 (Some 8) 7] /\
  decode_osm_car_turn_restrictions 1 [from1; odd; to; from2] (tagged [("restriction", "only_left_turn")]) = Some [] /\
  decode_osm_car_turn_restrictions 1 [from1; odd; to] (tagged [("restriction", "only_straight_on")]) = Some [mkRestr 1 true StraightOn 5 None 7] /\
  decode_osm_car_turn_restrictions 1 [from1; via; via; to] (tagged [("restriction", "no_u_turn")]) = Some [] /\
  decode_osm_car_turn_restrictions 1 [from1; to] (tagged [("restriction", "no_entry")]) = Some [].
Proof. by vm_compute. Qed.
(** The id 2^64 - 1 of a via node stands for no via node at all. *)
Theorem C53_largest_id_refuted : exists relation ms tags r, decode_osm_car_turn_restrictions relation ms tags = Some [r] /\ ~ exists value, value_of tags "restriction" value /\ describes relation ms (Some value) r.
Proof.
  assert (forall id, N.of_nat id = (2 ^ 64 - 1)%N -> decode_osm_car_turn_restrictions 1 [mkMember TWay 5 (bytes "from"); mkMember TNode id (bytes "via"); mkMember TWay 7 (bytes "to")] (tagged [("restriction", "no_left_turn")]) = Some [mkRestr 1 false LeftTurn 5 None 7]) as H.
  { intros id Hid. unfold decode_osm_car_turn_restrictions. vm_compute (get _ _). vm_compute (restriction_category _). cbv iota. vm_compute (restriction_direction _). cbv iota. change (collect_members _) with (Some (Some (Some 1, [0], [2]))). cbn [mbind option_bind lookup list_lookup mbind option_bind m_type m_id]. rewrite Hid. cbv -[N.pow N.sub]. done. }
  exists 1. eexists. eexists. eexists. split; [apply (H (N.to_nat (2 ^ 64 - 1))); apply N2Nat.id|]. intros (value & _ & _ & _ & Hv & _). by destruct Hv.
Qed.
Print Assumptions C53_largest_id_refuted.
