(** From the graph of an OSM file to routes with a CCH. *)
From Verif Require Import Base UtilSpec GraphSpec PathSpec ProtobufModel PermutationModel DistanceToolSpec DistanceToolProofs DistanceToolChProofs
  FlowModel FlowSpec NestedModel NestedSpec InertialModel InertialSpec OrderToolModel OrderToolSpec OrderToolProofs Properties_Nested Properties_OrderTool
  CchModel CchBuildModel CchApiSpec OsmGraphModel OsmGraphSpec OsmRouteSpec WalkSpec.
Ltac Zify.zify_post_hook ::= idtac.

Section transfer.
  Context {F : Type} (nodes : list nat) (tail head : list nat) (w : list N) (arcs : list (arc (F := F))) (weight : arc (F := F) -> N).
  Hypothesis Hnd : NoDup nodes.
  Hypothesis Hlt : length tail = length arcs.
  Hypothesis Hent : forall i a, arcs !! i = Some a ->
    (exists t, nodes !! t = Some (x_tail a) /\ tail !! i = Some t) /\ (exists h, nodes !! h = Some (x_head a) /\ head !! i = Some h) /\ w !! i = Some (weight a).

  Lemma walk_route s p t x y : awalk tail head s p t -> nodes !! s = Some x -> nodes !! t = Some y ->
    exists r, mapM (fun e => arcs !! e) p = Some r /\ route arcs x r y /\ total w p = route_length weight r.
  Proof.
    intros H. revert x. induction H as [u|u e v p t' He Hv H IH]; intros x Hx Hy.
    - simplify_eq. exists []. split; [done|]. split; [constructor|done].
    - destruct (lookup_lt_is_Some_2 arcs e) as [a Ha]; [rewrite <- Hlt; by eapply lookup_lt_Some|].
      destruct (Hent e a Ha) as ((t1 & Ht1 & Ht1') & (h1 & Hh1 & Hh1') & Hw). simplify_eq.
      destruct (IH _ Hh1 Hy) as (r & Er & Hr & HL). exists (a :: r). split.
      { cbn [mapM]. change (mapM (fun e => arcs !! e) (e :: p)) with (b ← arcs !! e; l ← mapM (fun e => arcs !! e) p; Some (b :: l)). by rewrite Ha, bind_S, Er, bind_S. }
      split; [apply route_cons; [by eapply elem_of_list_lookup_2|done]|].
      change (total w (e :: p)) with (default 0%N (w !! e) + total w p)%N. rewrite Hw, HL. done.
  Qed.
  Lemma route_walk s t x y r : route arcs x r y -> nodes !! s = Some x -> nodes !! t = Some y ->
    exists p, awalk tail head s p t /\ total w p = route_length weight r.
  Proof.
    intros H. revert s. induction H as [x|a r y Ha H IH]; intros s Hs Ht.
    - assert (s = t) as -> by (by eapply NoDup_lookup). exists []. split; [constructor|done].
    - apply elem_of_list_lookup in Ha as (e & Ha). destruct (Hent e a Ha) as ((t1 & Ht1 & Ht1') & (h1 & Hh1 & Hh1') & Hw).
      assert (s = t1) as -> by (by eapply NoDup_lookup). destruct (IH _ Hh1 Ht) as (p & Hp & HL). exists (e :: p). split; [by econstructor|].
      change (total w (e :: p)) with (default 0%N (w !! e) + total w p)%N. rewrite Hw, HL. done.
  Qed.
  Lemma distance_route s t x y d : nodes !! s = Some x -> nodes !! t = Some y -> is_distance tail head w s t d -> shortest_route arcs weight x y d.
  Proof.
    intros Hs Ht (H1 & H2 & H3). split; [done|]. split.
    - intros L (r & Hr & ->). destruct (route_walk _ _ _ _ _ Hr Hs Ht) as (p & Hp & HL). apply H2. exists p. by split.
    - destruct H3 as [H3|(p & Hp & HL)]; [by left|right]. destruct (walk_route _ _ _ _ _ Hp Hs Ht) as (r & _ & Hr & HL'). exists r. split; [done|]. congruence.
  Qed.
End transfer.

(** compute_nested_node_dissection_order_using_inertial_flow for an adjacency array. *)
Lemma order_by_coordinates asserts {F} (fplus fminus : F -> F -> F) flt nth_element garbage n fo tail head latitude longitude :
  nth_element_ok nth_element -> (forall part b, garbage_ok part (garbage part b)) -> comparable fplus fminus flt latitude longitude ->
  csr n fo head -> tails_ok fo tail head -> 0 < n <= length latitude -> n <= length longitude ->
  exists order, nested_dissection_order_by_coordinates asserts fplus fminus flt nth_element garbage n tail head latitude longitude = Some order /\ perm order /\ length order = n.
Proof.
  intros Hnth Hg Hc Hcsr Ht Hlat Hlon. pose proof (csr_tails_lt _ _ _ _ Hcsr Ht) as Hlt. rewrite Forall_forall in Hlt.
  destruct (C38_order_partial asserts unit (coordinate_separator asserts fplus fminus flt nth_element garbage latitude longitude) tt n tail head (proj1 Ht) Hlt (csr_head _ _ _ Hcsr)) as (g & order & E & E' & Hp & Hl); [lia| |].
  - intros g Hgl. apply coordinates_progress; [done..|]. intros u Hu. rewrite Hgl in Hu. apply elem_of_seq in Hu. lia.
  - exists order. split; [|done]. unfold nested_dissection_order_by_coordinates. by rewrite E, bind_S.
Qed.
